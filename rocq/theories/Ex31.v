(** The run of C10 again: what it asks of the store after the target (C97). *)
From Verif Require Import Base Lib Utils Caibx MainProg SpecBasic SpecEnv SpecStore SpecCaibx SpecMain SpecRun SpecOrder SpecReport SpecSource SpecNew PfCaibx PfUtils Toy Ex1 Ex2 Ex4 Ex6 Ex7.
Local Open Scope N_scope.

Definition w31 : world := run_world l_twice [].
Definition pieces31 : list bytes := [c1; c2; c1].
Lemma l_twice_ok : Forall (fun e => good_id (snd e)) l_twice. Proof. good_ids. Qed.
Lemma described31 : described toy0 csn_ts w31 pieces31.
Proof.
  apply toy_described; [exact l_twice_ok|cbn; lia|]. split; [reflexivity|]. intros i P HP. assert (Hi : (i < 3)%nat) by (change 3%nat with (length pieces31); apply nth_error_Some; congruence).
  destruct i as [|[|[|i]]]; [..|lia]; cbn [nth_error pieces31] in HP; injection HP as <-; vm_compute; repeat split; reflexivity.
Qed.
Lemma pieces31_full P : In P pieces31 -> P <> [].
Proof. intros H. repeat (destruct H as [<-|H]; [discriminate|]). destruct H. Qed.
Lemma index31 : the_index toy0 csn_ts w31 (w_files w31 105%nat) 3.
Proof. exists 105%nat, p_ex. split; [reflexivity|]. split; [reflexivity|]. exact (index_valid l_twice l_twice_ok ltac:(cbn; lia)). Qed.
Lemma sizes31 i : (i < 3)%nat -> 0 < ent_size (w_files w31 105%nat) i.
Proof.
  assert (H : map (ent_size (w_files w31 105%nat)) (seq 0 3) = [80; 65; 80]) by (vm_compute; reflexivity).
  revert H. generalize (w_files w31 105%nat). intros f H Hi. cbn [map seq] in H. injection H as H0 H1 H2.
  destruct i as [|[|[|i]]]; rewrite ?H0, ?H1, ?H2; try reflexivity. exfalso. revert Hi. apply Nat.nlt_ge. do 3 apply le_n_S. apply Nat.le_0_l.
Qed.
Lemma meets31 : sane toy0 csn_ts w31 /\ good_index toy0 csn_ts w31 /\ hash_reliable toy0 w31 /\ error_free (w_io w31) /\ ~ In false (w_alloc w31) /\
  nth_error (cmd_stores csn_ts) 0 = Some (cmd_target csn_ts) /\ length (cmd_stores csn_ts) = 2%nat /\ e_open_rw toy0 (cmd_target csn_ts) = Some 116%nat /\ w_files w31 116%nat = [] /\
  the_index toy0 csn_ts w31 (w_files w31 105%nat) 3 /\ (forall i, (i < 3)%nat -> 0 < ent_size (w_files w31 105%nat) i) /\
  described toy0 csn_ts w31 pieces31 /\ (forall P, In P pieces31 -> P <> []).
Proof.
  destruct serve_fine as (A & B & C). destruct once_run as (_ & D & F & G & _).
  split; [exact A|]. split; [exact B|]. split; [exact C|]. split; [exact D|]. split; [exact F|]. split; [exact G|]. split; [reflexivity|]. split; [reflexivity|]. split; [reflexivity|].
  split; [exact index31|]. split; [exact sizes31|]. split; [exact described31|exact pieces31_full].
Qed.
Lemma run31 : let r := main toy0 csn_ts w31 in fst r = Ok 0 /\ passed_on (w_trace (snd r)) = [id1; id2].
Proof. vm_compute. split; reflexivity. Qed.
Lemma novel31 : novel toy0 [] pieces31 = [id1; id2] /\ new_ids (w_files w31 105%nat) 0 3 = [id1; id2].
Proof. vm_compute. split; reflexivity. Qed.
