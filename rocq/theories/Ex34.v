(** Closing lines of runs (C100). *)
From Verif Require Import Base Lib Utils Log SpecLog LogSites Ui Patchdd SpecPatch Bench SpecBench SpecClosing Closing Toy Ex1 Ex7.
Local Open Scope N_scope.

Definition t34 : timespec := mkTs 5 999999999.
Definition t34' : timespec := mkTs 8 0.
Definition t34'' : timespec := mkTs 20 500000000.
Definition w34 : world := pd_world io_good s5 d7.
Lemma run34 : exists w', patchdd_main toy0 pd w34 = (Ok 0, w') /\ fst (patchdd_run toy0 pd w34) = Ok (0, Some (2, 5)).
Proof. eexists. split; vm_compute; reflexivity. Qed.
Lemma clocks34 : clock_ok t34 /\ clock_ok t34' /\ clock_ok t34'' /\ not_before t34 t34' /\ not_before t34' t34'' /\ (tv_sec t34'' - tv_sec t34 < 4294967296)%Z /\ (tv_sec t34' - tv_sec t34 < 4294967296)%Z.
Proof. vm_compute. repeat split; congruence. Qed.
Lemma text34 : patchdd_lines t34 t34' 2 5 = bs "synchronization finished after 3 seconds" ++ NL ++ bs "skipped a total of 2 bytes (40.00% of the input)" ++ NL /\ patchdd_text 3 2 4000 = patchdd_lines t34 t34' 2 5.
Proof. vm_compute. split; reflexivity. Qed.
Lemma lines34 : map (fun l => printf (s_fmt (fst l)) (snd l)) (run_lines t34 t34' t34'' 7) =
  [Some (bs "init finished after 3 seconds"); Some (bs "starting synchronization"); Some (bs "synchronization finished after 12 seconds"); Some (bs "skipped prefix of 7 chunks")].
Proof. vm_compute. reflexivity. Qed.
(** patchdd with an empty source *)
Lemma empty34 : exists E argv w w' t0 t1, patchdd_run E argv w = (Ok (0, Some (0, 0)), w') /\
  patchdd_lines t0 t1 0 0 = bs "synchronization finished after 3 seconds" ++ NL ++ bs "skipped a total of 0 bytes (nan% of the input)" ++ NL.
Proof. exists toy0, pd, (pd_world io_good [] d7). eexists. exists t34, t34'. split; vm_compute; reflexivity. Qed.
