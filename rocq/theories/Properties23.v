(** Property C87: how transfers are cut into pieces does not matter.  Statements only. *)
From Verif Require Import Base Lib SpecBasic SpecEnv SpecCaibx SpecRun SpecLive SpecSched MainProg PfSched Toy Ex9 Ex19 Ex23 Ex24.
Local Open Scope N_scope.

(** Two runs with two schedules without errors end alike, leave the same files, ask the same stores and servers the same
    questions in the same order and hand the same data to target_write; only the single transfers differ. *)
Theorem C87_schedule E argv w ev1 ev2 : index_apart E argv -> modest_run E argv w -> error_free ev1 -> error_free ev2 ->
  fst (main E argv (set_io ev1 w)) <> Halt -> fst (main E argv (set_io ev2 w)) <> Halt ->
  fst (main E argv (set_io ev1 w)) = fst (main E argv (set_io ev2 w)) /\ same_effects (snd (main E argv (set_io ev1 w))) (snd (main E argv (set_io ev2 w))).
Proof. exact (schedule_independent E argv w ev1 ev2). Qed.
Print Assumptions C87_schedule.

(** So there is one outcome for all schedules that are long enough. *)
Theorem C87_outcome E argv w : env_ok E -> kernel_unused E w -> index_apart E argv -> modest_run E argv w ->
  exists B o w', o <> Halt /\ forall ev, error_free ev -> (B <= transfers ev)%nat -> fst (main E argv (set_io ev w)) = o /\ same_effects (snd (main E argv (set_io ev w))) w'.
Proof. exact (schedule_unique E argv w). Qed.
Print Assumptions C87_outcome.

(** The run of C86, with large transfers and with pieces of one to seven bytes and an interruption before each. *)
Example C87_meets_run n : index_apart E23 argv19 /\ modest_run E23 argv19 (w19 n) /\ kernel_unused E23 (w19 n) /\ env_ok E23.
Proof. exact (conj apart24 (conj (modest24 n) (conj (unused24 n) (sa_env _ _ _ (sane23 n))))). Qed.
Example C87_meets_schedules n : error_free (w_io (w19 n)) /\ error_free (pieces24 n).
Proof. exact (conj (proj1 (quiet23 n)) (error_free24 n)). Qed.
Example C87_run : let r1 := main E23 argv19 (w19 60) in let r2 := main E23 argv19 (set_io (pieces24 1200) (w19 60)) in
  (fst r1, fst r2, w_files (snd r2) 116%nat, Nat.eqb (length (w_trace (snd r1))) (length (w_trace (snd r2)))) = (Ok 0, Ok 0, concat pieces9, false).
Proof. exact run24. Qed.
