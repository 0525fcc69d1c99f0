(** The run of Ex23 with other schedules, for C87. *)
From Verif Require Import Base Lib SpecBasic SpecEnv SpecCaibx SpecRun SpecLive SpecSched Utils Discr Chunker Caibx StoreHttp Chain MainProg PfBasic PfCaibx2 Toy Ex1 Ex2 Ex4 Ex5 Ex6 Ex8 Ex9 Ex19 Ex23.
Local Open Scope N_scope.

Lemma apart24 : index_apart E23 argv19.
Proof. exact (sa_index _ _ _ (sane23 0)). Qed.
Lemma modest24 n : modest_run E23 argv19 (w19 n).
Proof.
  intros ino X. assert (ino = 105%nat) as -> by (vm_compute in X; congruence). split; [apply (files19 n)|].
  change (w_files (w19 n) 105%nat) with (index_file 0 p_ex l9). intros i Hi. assert (L : length (index_file 0 p_ex l9) = 224%nat) by (vm_compute; reflexivity). assert (i < 4)%nat by lia. clear Hi L.
  destruct i as [|[|[|[|i]]]]; [..|lia]; vm_compute; discriminate.
Qed.
(** Pieces of one to seven bytes, every call interrupted once. *)
Definition pieces24 (n : nat) : list ioev := flat_map (fun i => [IoIntr; IoN (i mod 7)]) (seq 0 n).
Lemma error_free24 n : error_free (pieces24 n).
Proof. apply Forall_flat_map, Forall_forall. intros i _. repeat constructor. Qed.
Lemma unused24 n : kernel_unused E23 (w19 n). Proof. split; reflexivity. Qed.
Lemma run24 : let r1 := main E23 argv19 (w19 60) in let r2 := main E23 argv19 (set_io (pieces24 1200) (w19 60)) in
  (fst r1, fst r2, w_files (snd r2) 116%nat, Nat.eqb (length (w_trace (snd r1))) (length (w_trace (snd r2)))) = (Ok 0, Ok 0, concat pieces9, false).
Proof. vm_compute. reflexivity. Qed.
