(** What interrupted runs of patchdd write (C103).  Statements only. *)
From Verif Require Import Base Utils MainProg Patchdd SpecBasic SpecRun SpecPatch SpecFrontier SpecRepeat SpecPatch2 PfPatch2 Toy Ex1 Ex2 Ex4 Ex6 Ex7 Ex37.
Local Open Scope N_scope.

(** The destination has the first [lo] bytes of the source already.  However the run ends, there is a place up to which the destination holds the
    source and after which it holds what it held before; what was written goes forward from [lo] to no further than that place. *)
Theorem C103_forward E argv w src dst lo : src_of E argv = Some src -> dst_of E argv = Some dst ->
  let s := w_files w src in let d := w_files w dst in let w' := snd (patchdd_main E argv w) in
  (lo <= length s)%nat -> firstn lo d = firstn lo s ->
  exists p tr, (lo <= p <= length s)%nat /\ run_trace w w' tr /\ w_files w' dst = firstn p s ++ skipn p d /\ ascending (N.of_nat lo) (writes tr) (N.of_nat p).
Proof. exact (patchdd_forward E argv w src dst lo). Qed.
Print Assumptions C103_forward.
(** The same for any number of runs, which together write no more bytes than lie between the two places. *)
Theorem C103_total s l g g' lo : patchings s g l g' -> (lo <= length s)%nat -> firstn lo g = firstn lo s ->
  exists p trs, (lo <= p <= length s)%nat /\ g' = firstn p s ++ skipn p g /\
    Forall2 (fun a tr => run_trace (at_world a) (pat_end a) tr) l trs /\ (lo + total amount trs <= p)%nat.
Proof. exact (patchings_total s l g g' lo). Qed.
Print Assumptions C103_total.

Example C103_run : let r := patchdd_main toy0 pd (pd_world io_cut s5 d7) in
  src_of toy0 pd = Some 115%nat /\ dst_of toy0 pd = Some 116%nat /\ firstn 2 d7 = firstn 2 s5 /\ fst r = Halt /\ writes (w_trace (snd r)) = [(2, bs "cd")].
Proof. exact run37. Qed.
Example C103_runs : patchings s5 d7 tries37 (bs "abcdefg") /\ map (fun a => amount (w_trace (pat_end a))) tries37 = [2; 1]%nat.
Proof. exact (conj patchings37 amounts37). Qed.
