(** Updates from an older image and a server, for C81. *)
From Verif Require Import Base Lib SpecBasic SpecEnv Utils Discr Chunker Caibx StoreHttp Chain MainProg SpecChunker SpecCaibx SpecStore SpecHttp SpecMain SpecRun SpecProgress SpecDelta
  PfBasic PfKeyspec PfCaibx PfCaibx2 PfDelta Toy Ex1 Ex2 Ex4 Ex5 Ex6 Ex8 Ex9.
Local Open Scope N_scope.

(** *** csn i t a:j http://h/x: the old image "a" has the index "j"; it holds [pb] but not [pa]. *)
Definition px : bytes := [9; 9; 9; 9].
Definition old_index : list (N * bytes) := [(4, toyH px); (9, toyH pb)].
Definition arg19 : bytes := bs "a:j".
Definition argv19 : list bytes := [bs "csn"; bs "i"; bs "t"; arg19; site].
Definition w19 (n : nat) : world := toy_world [(105%nat, index_file 0 p_ex l9); (106%nat, index_file 0 p_ex old_index); (97%nat, px ++ pb); (116%nat, [])] n.
Lemma old_ok : Forall (fun e => good_id (snd e)) old_index. Proof. good_ids. Qed.
Lemma files19 n : files_ok (w19 n).
Proof.
  intros i. unfold w19, toy_world, files_of. cbn [w_files find fst].
  destruct (Nat.eqb_spec 105 i); [cbn [snd]; split; [apply index_file_ok, l9_ok|]; unfold blen; rewrite index_file_length by exact l9_ok; vm_compute; reflexivity|].
  destruct (Nat.eqb_spec 106 i); [cbn [snd]; split; [apply index_file_ok, old_ok|]; unfold blen; rewrite index_file_length by exact old_ok; vm_compute; reflexivity|].
  destruct (Nat.eqb_spec 97 i); [cbn [snd]; split; [apply small_bytes|]; vm_compute; reflexivity|].
  destruct (Nat.eqb_spec 116 i); cbn [snd]; (split; [constructor|vm_compute; reflexivity]).
Qed.
Lemma valid19 n : valid_index (w_files (w19 n) 105%nat) p_ex 3. Proof. apply (index_valid l9 l9_ok). cbn; lia. Qed.
Lemma old_valid19 n : valid_index (w_files (w19 n) 106%nat) p_ex 2. Proof. apply (index_valid old_index old_ok). cbn; lia. Qed.
Lemma sane19 n : sane E9 argv19 (w19 n).
Proof.
  pose proof (sane9 0) as [S1 S2 S3 _ _ _ _ _ _]. constructor.
  - exact S1.
  - exact S2.
  - exact S3.
  - apply files19.
  - change (cmd_stores argv19) with [arg19; site]. apply Forall_forall. intros a [<-|[<-|[]]]; apply no_nul_b; vm_compute; reflexivity.
  - intros X. vm_compute in X. discriminate X.
  - intros ino X Y. vm_compute in X, Y. congruence.
  - intros ino arg path X [<-|[<-|[]]] (ip & HA) Y; vm_compute in HA; [|discriminate HA]. injection HA as <- <-. vm_compute in X, Y. congruence.
  - intros ino p k arg path X HV _ _. assert (ino = 105%nat) as -> by (vm_compute in X; congruence). destruct (valid_same _ _ _ _ _ (valid19 n) HV) as (-> & _). exists 45. exact disc_ex.
Qed.
Lemma calm19 n : error_free (w_io (w19 n)) /\ ~ In false (w_alloc (w19 n)) /\ hash_reliable E9 (w19 n).
Proof. split; [apply Forall_forall; intros x Hx; apply repeat_spec in Hx; now subst|]. split; [intros []|left; split; reflexivity]. Qed.
Lemma seeded19 n : seeded E9 (w19 n) (cmd_target argv19) p_ex arg19 (ent_id (w_files (w19 n) 105%nat) 1).
Proof.
  replace (ent_id (w_files (w19 n) 105%nat) 1) with (ent_id (w_files (w19 n) 106%nat) 1) by (vm_compute; reflexivity).
  apply seed_index with (path := bs "a") (ip := bs "j") (ino := 97%nat) (iino := 106%nat) (p := p_ex) (n := 2); try reflexivity.
  - discriminate.
  - apply old_valid19.
  - intros i Hi. destruct i as [|[|i]]; [vm_compute; split; [reflexivity|discriminate]|vm_compute; split; [reflexivity|discriminate]|cbn in Hi; lia].
  - intros i Hi. destruct i as [|[|i]]; [..|cbn in Hi; lia]; (split; [vm_compute; discriminate|]; split; [vm_compute; discriminate|vm_compute; reflexivity]).
  - cbn. lia.
Qed.
(** The server is asked for [pa] (twice) and not for [pb]. *)
Lemma run19 : let r := main E9 argv19 (w19 60) in (fst r, w_files (snd r) 116%nat, asked_of 1 (w_trace (snd r)), asked_of 0 (w_trace (snd r)))
  = (Ok 0, pa ++ pb ++ pa, [toyH pa; toyH pa], [toyH pa; toyH pb; toyH pa]).
Proof. vm_compute. reflexivity. Qed.
Lemma met_index n : sane E9 argv19 (w19 n) /\ hash_reliable E9 (w19 n) /\ error_free (w_io (w19 n)) /\ ~ In false (w_alloc (w19 n)) /\ e_open E9 (cmd_index argv19) = Some 105%nat /\
  valid_index (w_files (w19 n) 105%nat) p_ex 3 /\ nth_error (cmd_stores argv19) 0 = Some arg19 /\ seeded E9 (w19 n) (cmd_target argv19) p_ex arg19 (ent_id (w_files (w19 n) 105%nat) 1).
Proof. destruct (calm19 n) as (A & B & C). split; [apply sane19|]. split; [exact C|]. split; [exact A|]. split; [exact B|]. split; [reflexivity|]. split; [apply valid19|]. split; [reflexivity|apply seeded19]. Qed.

(** *** csn i t s t: the file "s" is scanned; it holds all the chunks of the index. *)
Definition csn_st : list bytes := [bs "csn"; bs "i"; bs "t"; bs "s"; bs "t"].
Lemma sane_st : sane toy0 csn_st w_run.
Proof. apply toy_sane; [exact l_run_ok|cbn; lia|apply t_run_ok|apply t_run_ok|]. constructor; [now right|]. constructor; [now left|constructor]. Qed.
Lemma chunks_s : chunks p_ex 45 data_ex = [c1; c2; c3]. Proof. vm_compute. reflexivity. Qed.
Lemma held_s i : (i < 4)%nat -> seeded toy0 w_run (cmd_target csn_st) p_ex (bs "s") (ent_id (w_files w_run 105%nat) i).
Proof.
  intros Hi. assert (H : forall c, In c [c1; c2; c3] -> seeded toy0 w_run (cmd_target csn_st) p_ex (bs "s") (e_H toy0 c)).
  { intros c Hc. apply seed_scan with (path := bs "s") (ino := 115%nat) (D := 45); [reflexivity|reflexivity|exact disc_ex|vm_compute; discriminate|].
    change (w_files w_run 115%nat) with data_ex. now rewrite chunks_s. }
  destruct i as [|[|[|[|i]]]]; [..|lia].
  - replace (ent_id (w_files w_run 105%nat) 0) with (e_H toy0 c2) by (vm_compute; reflexivity). apply H. cbn; auto.
  - replace (ent_id (w_files w_run 105%nat) 1) with (e_H toy0 c1) by (vm_compute; reflexivity). apply H. cbn; auto.
  - replace (ent_id (w_files w_run 105%nat) 2) with (e_H toy0 c1) by (vm_compute; reflexivity). apply H. cbn; auto.
  - replace (ent_id (w_files w_run 105%nat) 3) with (e_H toy0 c3) by (vm_compute; reflexivity). apply H. cbn; auto.
Qed.
Lemma met_scan : sane toy0 csn_st w_run /\ hash_reliable toy0 w_run /\ error_free (w_io w_run) /\ ~ In false (w_alloc w_run) /\ e_open toy0 (cmd_index csn_st) = Some 105%nat /\
  valid_index (w_files w_run 105%nat) p_ex 4 /\ nth_error (cmd_stores csn_st) 0 = Some (bs "s") /\
  (forall i, (i < 4)%nat -> (fun _ : nat => true) i = true -> seeded toy0 w_run (cmd_target csn_st) p_ex (bs "s") (ent_id (w_files w_run 105%nat) i)).
Proof.
  split; [exact sane_st|]. split; [now apply toy_reliable|]. split; [apply toy_world_quiet|]. split; [intros []|]. split; [reflexivity|]. split; [apply (index_valid l_run l_run_ok); cbn; lia|]. split; [reflexivity|].
  intros i Hi _. now apply held_s.
Qed.
