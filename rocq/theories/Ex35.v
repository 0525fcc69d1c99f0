(** A run that is killed in the middle of writing, and one after it (C101). *)
From Verif Require Import Base Lib Utils Caibx MainProg SpecBasic SpecEnv SpecStore SpecCaibx SpecMain SpecRun SpecReport SpecSource SpecDiary SpecOutline SpecFrontier PfCaibx PfUtils Toy Ex1 Ex2 Ex4 Ex6 Ex15.
Local Open Scope N_scope.

Definition t35 : bytes := c2 ++ repeat 9 100.
(** Fourteen transfers, the last one of at most 11 bytes, then the run is killed. *)
Definition w35 : world := set_io (repeat (IoN 1000) 13 ++ [IoN 10]) (run_world l_run t35).
Definition g35 : bytes := firstn 156 (concat pieces_run) ++ repeat 9 9.
Lemma run35 : let r := main toy0 csn_s w35 in fst r = Halt /\ w_files (snd r) 116%nat = g35 /\ diary (w_trace (snd r)) = [Asks id1; Puts 65 c1; Puts 145 c1].
Proof. vm_compute. split; [reflexivity|split; reflexivity]. Qed.
Lemma t35_ok : bytes_ok t35 /\ blen t35 < OFF_LIMIT. Proof. split; [unfold bytes_ok; repeat constructor|reflexivity]. Qed.
Lemma g35_ok : bytes_ok g35 /\ blen g35 < OFF_LIMIT. Proof. split; [unfold bytes_ok; vm_compute; repeat constructor|reflexivity]. Qed.
Lemma sane35 : sane toy0 csn_s w35.
Proof.
  pose proof (toy_sane l_run t35 [bs "s"] l_run_ok ltac:(cbn; lia) (proj1 t35_ok) (proj2 t35_ok) ltac:(one_arg)) as [A1 A2 A3 A4 A5 A6 A7 A8 A9]. now constructor.
Qed.
Lemma desc35 : described toy0 csn_s w35 pieces_run.
Proof. apply (toy_described l_run t35 [bs "s"] pieces_run l_run_ok ltac:(cbn; lia) run_described). Qed.
Lemma nonempty35 P : In P pieces_run -> P <> [].
Proof. intros [<-|[<-|[<-|[<-|[]]]]]; discriminate. Qed.
Definition tries35 : list attempt := [mkAttempt toy0 csn_s w35 116; mkAttempt toy0 csn_s (run_world l_run g35) 116].
Lemma attempts35 : attempts pieces_run t35 tries35 (w_files (at_end (mkAttempt toy0 csn_s (run_world l_run g35) 116)) 116%nat).
Proof.
  split; [exact sane35|]. split; [exact desc35|]. split; [reflexivity|]. split; [reflexivity|].
  split; [apply (toy_sane l_run g35 [bs "s"] l_run_ok ltac:(cbn; lia) (proj1 g35_ok) (proj2 g35_ok)); one_arg|].
  split; [apply (toy_described l_run g35 [bs "s"] pieces_run l_run_ok ltac:(cbn; lia) run_described)|]. split; [reflexivity|]. split; [|reflexivity].
  symmetry. apply run35.
Qed.
Lemma good35 : good_index toy0 csn_s w35.
Proof. apply (toy_good l_run t35 [bs "s"] l_run_ok ltac:(cbn; lia) run_wf). Qed.
Lemma index35 : the_index toy0 csn_s w35 (w_files w35 105%nat) 4.
Proof. exists 105%nat, p_ex. split; [reflexivity|]. split; [reflexivity|]. exact (index_valid l_run l_run_ok ltac:(cbn; lia)). Qed.
Lemma sizes35 i : (i < 4)%nat -> 0 < ent_size (w_files w35 105%nat) i.
Proof.
  assert (H : map (ent_size (w_files w35 105%nat)) (seq 0 4) = [65; 80; 80; 15]) by (vm_compute; reflexivity).
  revert H. generalize (w_files w35 105%nat). intros f H Hi. cbn [map seq] in H. injection H as H0 H1 H2 H3.
  destruct i as [|[|[|[|i]]]]; rewrite ?H0, ?H1, ?H2, ?H3; try reflexivity. exfalso. revert Hi. apply Nat.nlt_ge. do 4 apply le_n_S. apply Nat.le_0_l.
Qed.
