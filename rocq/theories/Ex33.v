(** A run that fails at a chunk that the store lacks: what it has asked for and written (C99). *)
From Verif Require Import Base Lib Utils Caibx MainProg SpecBasic SpecEnv SpecStore SpecCaibx SpecMain SpecRun SpecReport SpecSource SpecDiary SpecOutline PfCaibx PfUtils Toy Ex1 Ex2 Ex4 Ex6 Ex15.
Local Open Scope N_scope.

Definition id_none : bytes := toyH (bs "lost").
Definition l33 : list (N * bytes) := [(65, id2); (145, id1); (225, id_none); (240, id3)].
Definition w33 : world := run_world l33 t_run.
Lemma l33_ok : Forall (fun e => good_id (snd e)) l33. Proof. good_ids. Qed.
Lemma run33 : let r := main toy0 csn_s w33 in fst r = Ok 1 /\ diary (w_trace (snd r)) = [Asks id1; Puts 65 c1; Asks id_none].
Proof. vm_compute. split; reflexivity. Qed.
Lemma index33 : the_index toy0 csn_s w33 (w_files w33 105%nat) 4.
Proof. exists 105%nat, p_ex. split; [reflexivity|]. split; [reflexivity|]. exact (index_valid l33 l33_ok ltac:(cbn; lia)). Qed.
Lemma sizes33 i : (i < 4)%nat -> 0 < ent_size (w_files w33 105%nat) i.
Proof.
  assert (H : map (ent_size (w_files w33 105%nat)) (seq 0 4) = [65; 80; 80; 15]) by (vm_compute; reflexivity).
  revert H. generalize (w_files w33 105%nat). intros f H Hi. cbn [map seq] in H. injection H as H0 H1 H2 H3.
  destruct i as [|[|[|[|i]]]]; rewrite ?H0, ?H1, ?H2, ?H3; try reflexivity. exfalso. revert Hi. apply Nat.nlt_ge. do 4 apply le_n_S. apply Nat.le_0_l.
Qed.
Lemma wf33 : well_formed (index_file 0 p_ex l33) (length l33).
Proof. intros i Hi. cbn in Hi. destruct i as [|[|[|[|i]]]]; [..|lia]; vm_compute; repeat split; congruence. Qed.
Lemma meets33 : sane toy0 csn_s w33 /\ good_index toy0 csn_s w33 /\ hash_reliable toy0 w33 /\ e_open_rw toy0 (cmd_target csn_s) = Some 116%nat /\
  the_index toy0 csn_s w33 (w_files w33 105%nat) 4 /\ (forall i, (i < 4)%nat -> 0 < ent_size (w_files w33 105%nat) i).
Proof.
  split; [apply toy_sane; [exact l33_ok|cbn; lia|apply t_run_ok|apply t_run_ok|one_arg]|]. split; [apply toy_good; [exact l33_ok|cbn; lia|exact wf33]|].
  split; [now apply toy_reliable|]. split; [reflexivity|]. split; [exact index33|exact sizes33].
Qed.
Lemma steps33 : steps (w_files w33 105%nat) 1 4 = [Ask id1; Write 65 80; Ask id_none; Write 145 80; Ask id3; Write 225 15].
Proof. vm_compute. reflexivity. Qed.
