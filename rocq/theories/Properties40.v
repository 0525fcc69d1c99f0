(** Power failures (C106).  Statements only. *)
From Verif Require Import Base Lib Utils MainProg Patchdd SpecBasic SpecEnv SpecStore SpecCaibx SpecMain SpecRun SpecPatch SpecFrontier SpecRepeat SpecPatch2 SpecPower PfPower Toy Ex1 Ex2 Ex4 Ex6 Ex7 Ex40.
Local Open Scope N_scope.

(** However often patchdd is started, stops and the power fails, the destination keeps its size and each of its bytes is the old one or the source's. *)
Theorem C106_patch_mixed s d l g : patch_cuts s d l g -> mixed s d g.
Proof. exact (patch_cuts_mixed s l d g). Qed.
Print Assumptions C106_patch_mixed.

(** A run of patchdd that succeeds after all of this leaves exactly the wanted result, and no power failure after it changes that. *)
Theorem C106_patch_done E argv w w' src dst d l : src_of E argv = Some src -> dst_of E argv = Some dst -> let s := w_files w src in
  patch_cuts s d l (w_files w dst) -> patchdd_main E argv w = (Ok 0, w') ->
  w_files w' dst = patched s d /\ forall g, leaves dst w w' g -> g = patched s d.
Proof. exact (patch_cuts_done E argv w w' src dst d l). Qed.
Print Assumptions C106_patch_done.

(** However often csn or casync is started for an image, stops and the power fails, each byte of the target is the old one, the image's, or a zero
    in the part by which it has grown, and nothing behind the end of the image has changed; or two strings have the same hash. *)
Theorem C106_sync_blended pieces d l g : sync_cuts pieces d l g -> blended (concat pieces) d g \/ deceived pieces l.
Proof. exact (sync_cuts_blended pieces l d g). Qed.
Print Assumptions C106_sync_blended.

(** A run that succeeds after all of this leaves exactly the image, followed by what the target held there at first. *)
Theorem C106_sync_done pieces l d E argv w w' tino : sync_cuts pieces d l (w_files w tino) -> sane E argv w -> described E argv w pieces ->
  e_open_rw E (cmd_target argv) = Some tino -> main E argv w = (Ok 0, w') -> let image := concat pieces in
  w_files w' tino = image ++ skipn (length image) d \/ deceived pieces (l ++ [mkAttempt E argv w tino]) \/
  collision E pieces (fun y => exists f n i, (exists iino p, e_open E (cmd_index argv) = Some iino /\ w_files w iino = f /\ valid_index f p n) /\
    (i < N.to_nat n)%nat /\ end_piece y (ent_slice f i (w_files w' tino))).
Proof. exact (sync_cuts_done pieces l d E argv w w' tino). Qed.
Print Assumptions C106_sync_done.

(** patchdd loses "c" but not the "de" it wrote after it, and repairs that in the next run. *)
Example C106_patch_meets : let w := pd_world io_good s5 (bs "abXdefg") in src_of toy0 pd = Some 115%nat /\ dst_of toy0 pd = Some 116%nat /\
  patch_cuts (w_files w 115%nat) d7 tries40 (w_files w 116%nat) /\ exists w', patchdd_main toy0 pd w = (Ok 0, w') /\ w_files w' 116%nat = bs "abcdefg".
Proof. exact done40. Qed.
(** csn writes three times; only the second of these arrives, which leaves a hole before it.  The next run fills it. *)
Example C106_sync_meets : let w := run_world l_run holed40 in sync_cuts pieces_run t_run sync40 (w_files w 116%nat) /\ sane toy0 csn_s w /\ described toy0 csn_s w pieces_run /\
  e_open_rw toy0 (cmd_target csn_s) = Some 116%nat /\ exists w', main toy0 csn_s w = (Ok 0, w') /\ w_files w' 116%nat = img40 ++ skipn (length img40) t_run.
Proof. exact syncdone40. Qed.
