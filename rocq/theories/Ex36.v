(** The two runs of Ex35 count together (C102). *)
From Verif Require Import Base Lib Utils Caibx MainProg SpecBasic SpecEnv SpecStore SpecCaibx SpecMain SpecRun SpecOrder SpecReport SpecSource SpecDiary SpecOutline SpecFrontier SpecRepeat PfCaibx PfUtils Toy Ex1 Ex2 Ex4 Ex6 Ex15 Ex35.
Local Open Scope N_scope.

Definition f36 : bytes := index_file 0 p_ex l_run.
Lemma index36 w : w_files w 105%nat = f36 -> the_index toy0 csn_s w f36 4.
Proof. intros H. exists 105%nat, p_ex. split; [reflexivity|]. split; [exact H|]. exact (index_valid l_run l_run_ok ltac:(cbn; lia)). Qed.
Lemma sizes36 i : (i < 4)%nat -> 0 < ent_size f36 i <= BUF_SIZE.
Proof.
  assert (H : map (ent_size f36) (seq 0 4) = [65; 80; 80; 15]) by (vm_compute; reflexivity).
  revert H. generalize f36. intros f H Hi. cbn [map seq] in H. injection H as H0 H1 H2 H3.
  destruct i as [|[|[|[|i]]]]; rewrite ?H0, ?H1, ?H2, ?H3; try (split; [reflexivity|vm_compute; discriminate]). exfalso. revert Hi. apply Nat.nlt_ge. do 4 apply le_n_S. apply Nat.le_0_l.
Qed.
Lemma continued36 : continued toyH f36 4 t35 tries35 (w_files (at_end (mkAttempt toy0 csn_s (run_world l_run g35) 116)) 116%nat).
Proof.
  destruct attempts35 as (A1 & _ & A3 & A4 & B1 & _ & B3 & B4 & B5).
  split; [reflexivity|]. split; [exact A1|]. split; [exact good35|]. split; [now apply toy_reliable|]. split; [unfold error_free; repeat constructor|]. split; [now apply index36|]. split; [exact A3|]. split; [exact A4|].
  split; [reflexivity|]. split; [exact B1|]. split; [apply (toy_good l_run g35 [bs "s"] l_run_ok ltac:(cbn; lia) run_wf)|]. split; [now apply toy_reliable|]. split; [exact (proj1 (toy_world_quiet l_run g35))|]. split; [now apply index36|]. split; [exact B3|]. split; [exact B4|exact B5].
Qed.
Lemma present36 : prefix_present toy0 f36 1 t35.
Proof. intros j Hj. destruct j as [|j]; [|lia]. vm_compute. repeat split; congruence. Qed.
