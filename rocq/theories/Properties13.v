(** Properties C63-C65: patchdd and csn-tool come to an end; a run asks servers only so often.  Statements only. *)
From Verif Require Import Base Lib SpecBasic SpecEnv Utils MainProg Patchdd Tool SpecMain SpecRun SpecLive SpecPatch SpecTool SpecTransfers PfEnd PfTransfers Toy Ex1 Ex2 Ex4 Ex6 Ex7 Ex11 Ex13.
Local Open Scope N_scope.

(** ** C63: patchdd *)
(** However slowly the devices answer, three calls for each byte of the source and one fsync suffice to end with an exit status. *)
Theorem C63_patchdd_ends E argv w : ~ In IoZero (w_io w) ->
  (forall src, src_of E argv = Some src -> (3 * length (w_files w src) + 1 <= settled (w_io w))%nat) ->
  exists status, fst (patchdd_main E argv w) = Ok status.
Proof. exact (patchdd_ends E argv w). Qed.
Print Assumptions C63_patchdd_ends.
Example C63_met : ~ In IoZero io_slow /\ src_of toy0 pd = Some 115%nat /\ (3 * length s5 + 1 <= settled io_slow)%nat.
Proof. exact slow_meets. Qed.
Example C63_run : let r := patchdd_main toy0 pd (pd_world io_slow s5 (bs "XXXXXfg")) in (fst r, w_files (snd r) 116%nat, w_io (snd r)) = (Ok 0, bs "abcdefg", []).
Proof. exact slow_run. Qed.
(** No smaller number suffices. *)
Example C63_tight : let w := pd_world (repeat (IoN 0) 15) s5 (bs "XXXXXfg") in fst (patchdd_main toy0 pd w) = Halt.
Proof. exact short_run. Qed.
(** A device that accepts no byte makes the program abort. *)
Theorem C63_stuck_refuted : exists E argv w, fst (patchdd_main E argv w) = Abort.
Proof. exact (ex_intro _ toy0 (ex_intro _ pd (ex_intro _ (pd_world io_stuck s5 d7) (f_equal fst stuck_run)))). Qed.
Print Assumptions C63_stuck_refuted.

(** ** C64: csn-tool *)
Theorem C64_tool_ends M argv w : ~ In IoZero (tw_io w) -> (forall p d, tw_fs w p = Some d -> (length d <= M)%nat) ->
  (M + 2 * M * S (length (tw_stdin w)) <= settled (tw_io w))%nat -> exists status, fst (tool_main argv w) = Ok status.
Proof. exact (fun Hz Hf => tool_ends M argv w (conj Hz Hf)). Qed.
Print Assumptions C64_tool_ends.
Example C64_met : ~ In IoZero t_io /\ (forall p d, t_fs p = Some d -> (length d <= 3)%nat) /\ (3 + 2 * 3 * S (length (tw_stdin (t_world t_io))) <= settled t_io)%nat.
Proof. exact t_meets. Qed.
Example C64_run : let r := tool_main t_argv (t_world t_io) in (fst r, length (tw_io (snd r)), option_map (@length N) (tw_fs (snd r) (ck 98 ++ bs ".enc"))) = (Ok 0, 888%nat, Some 3%nat).
Proof. exact t_run. Qed.
Theorem C64_stuck_refuted : exists argv w, fst (tool_main argv w) = Abort.
Proof. exact (ex_intro _ t_argv (ex_intro _ (t_world [IoN 5; IoZero]) t_stuck)). Qed.
Print Assumptions C64_stuck_refuted.

(** ** C65: transfers *)
(** Whatever the servers answer and however the run ends, there are at most ten transfers for each chunk and HTTP store,
    and the delays between them add up to at most 52.6 seconds. *)
Theorem C65_transfers E argv w : let n := http_stores argv * room E argv w in
  exists tr, run_trace w (snd (main E argv w)) tr /\ performs tr <= 10 * n /\ slept tr <= 52600000 * n.
Proof. exact (transfers_bounded E argv w). Qed.
Print Assumptions C65_transfers.
(** Both numbers are reached. *)
Example C65_reached : (http_stores argv13, room toy0 argv13 w13) = (2, 1) /\ let r := main toy0 argv13 w13 in (fst r, performs (w_trace (snd r)), slept (w_trace (snd r))) = (Ok 1, 20, 105200000).
Proof. exact (conj room13 dead13). Qed.
