(** The run of C74 again: what it asks for and writes (C96). *)
From Verif Require Import Base Lib Utils Caibx MainProg SpecBasic SpecEnv SpecStore SpecCaibx SpecMain SpecRun SpecReport SpecSource SpecDiary PfCaibx PfUtils Toy Ex1 Ex2 Ex4  Ex6 Ex15.
Local Open Scope N_scope.

Lemma run30 : let r := main toy0 csn_s w_run in fst r = Ok 0 /\ diary (w_trace (snd r)) = [Asks id1; Puts 65 c1; Puts 145 c1; Asks id3; Puts 225 c3].
Proof. vm_compute. split; reflexivity. Qed.
Lemma index30 : the_index toy0 csn_s w_run (w_files w_run 105%nat) 4.
Proof.
  exists 105%nat, p_ex. split; [reflexivity|]. split; [reflexivity|]. exact (index_valid l_run l_run_ok ltac:(cbn; lia)).
Qed.
Lemma plan30 : plan toy0 None 65 [c1; c1; c3] = [Asks id1; Puts 65 c1; Puts 145 c1; Asks id3; Puts 225 c3].
Proof. vm_compute. reflexivity. Qed.
Lemma pieces30 P : In P pieces_run -> P <> [].
Proof. intros H. repeat (destruct H as [<-|H]; [discriminate|]). destruct H. Qed.
Lemma io30 : error_free (w_io w_run).
Proof. unfold error_free. apply Forall_forall. intros e He. assert (H : forallb (fun e => match e with IoN _ | IoIntr => true | _ => false end) (w_io w_run) = true) by (vm_compute; reflexivity). rewrite forallb_forall in H. apply H in He. now destruct e. Qed.
