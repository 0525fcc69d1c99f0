(** Witnesses for Properties11.v. *)
From Verif Require Import Base Lib SpecBasic SpecEnv Utils Discr Chunker Caibx Index StoreLocal Target StoreHttp Chain MainProg SpecChunker SpecCaibx SpecStore SpecHttp SpecMain SpecRun
  SpecAbort PfUtils PfBasic PfIO PfCaibx PfCaibx2 PfFrame PfSetup Toy Ex1 Ex2 Ex4 Ex6.
Local Open Scope N_scope.

(** The index "i" lists [l], the index "j" lists [lj], the store "d" contains [d], the store "s" [data_ex]. *)
Definition w11 (l lj : list (N * bytes)) (d : bytes) (io : list ioev) : world :=
  mkWorld (files_of [(115%nat, data_ex); (105%nat, index_file 0 p_ex l); (106%nat, index_file 0 p_ex lj); (100%nat, d)]) io [] false [] 0 [].
Definition argv11 (args : list bytes) : list bytes := bs "csn" :: bs "i" :: bs "t" :: args.
Definition small (l : list (N * bytes)) : Prop := Forall (fun e => good_id (snd e)) l /\ (length l <= 10)%nat.
Definition big11 : list ioev := repeat (IoN 1000) 400.

Section W11.
Variables (l lj : list (N * bytes)) (d : bytes) (io : list ioev).
Hypothesis (Hl : small l) (Hlj : small lj) (Hd : bytes_ok d) (Hdl : blen d < 1000000).
Lemma w11_files : files_ok (w11 l lj d io).
Proof.
  intros i. unfold w11, files_of. cbn [w_files find fst].
  destruct (Nat.eqb_spec 115 i); [cbn [snd]; split; [exact data_ex_ok|vm_compute; reflexivity]|].
  destruct (Nat.eqb_spec 105 i); [cbn [snd]; split; [apply index_file_ok, Hl|unfold blen; rewrite index_file_length by apply Hl; destruct Hl; unfold OFF_LIMIT; lia]|].
  destruct (Nat.eqb_spec 106 i); [cbn [snd]; split; [apply index_file_ok, Hlj|unfold blen; rewrite index_file_length by apply Hlj; destruct Hlj; unfold OFF_LIMIT; lia]|].
  destruct (Nat.eqb_spec 100 i); [cbn [snd]; split; [exact Hd|unfold OFF_LIMIT; lia]|].
  split; [constructor|vm_compute; reflexivity].
Qed.
Lemma w11_params ino p n : e_open toy0 (bs "i") = Some ino -> valid_index (w_files (w11 l lj d io) ino) p n -> w_files (w11 l lj d io) ino = index_file 0 p_ex l /\ p = p_ex /\ n = N.of_nat (length l).
Proof.
  intros X HV. assert (ino = 105%nat) as -> by (vm_compute in X; congruence). change (w_files (w11 l lj d io) 105%nat) with (index_file 0 p_ex l) in *.
  destruct Hl as (H1 & H2). destruct (valid_same _ _ _ _ _ (index_valid l H1 H2) HV) as (-> & ->). auto.
Qed.
Lemma w11_side ino p n : e_open toy0 (bs "j") = Some ino -> valid_index (w_files (w11 l lj d io) ino) p n -> w_files (w11 l lj d io) ino = index_file 0 p_ex lj /\ n = N.of_nat (length lj).
Proof.
  intros X HV. assert (ino = 106%nat) as -> by (vm_compute in X; congruence). change (w_files (w11 l lj d io) 106%nat) with (index_file 0 p_ex lj) in *.
  destruct Hlj as (H1 & H2). destruct (valid_same _ _ _ _ _ (index_valid lj H1 H2) HV) as (_ & ->). auto.
Qed.
Definition usual (a : bytes) : Prop := a = bs "t" \/ a = bs "s" \/ a = bs "d" \/ a = bs "d:j".
Lemma w11_sane args : Forall usual args -> sane toy0 (argv11 args) (w11 l lj d io).
Proof.
  intros Ha. rewrite Forall_forall in Ha. assert (Ec : is_csn (argv11 args) = true) by reflexivity. assert (Ei : cmd_index (argv11 args) = bs "i") by reflexivity. assert (Et : cmd_target (argv11 args) = bs "t") by reflexivity.
  assert (Es : cmd_stores (argv11 args) = args) by reflexivity. constructor.
  - apply toy_ok.
  - apply toy_server_ok.
  - intros v s X. discriminate.
  - apply w11_files.
  - rewrite Es. apply Forall_forall. intros a Hin. destruct (Ha a Hin) as [-> |[-> |[-> | ->]]]; intros X; cbn in X; intuition discriminate.
  - congruence.
  - rewrite Ei, Et. intros ino X Y. vm_compute in X, Y. congruence.
  - rewrite Et, Es. intros ino arg path X Hin (ip & HA) Y. destruct (Ha arg Hin) as [-> |[-> |[-> | ->]]]; vm_compute in HA; try discriminate; injection HA as <- <-; vm_compute in X, Y; congruence.
  - rewrite Ei. intros ino p n arg path X HV _ _. destruct (w11_params ino p n X HV) as (_ & -> & _). exists 45. exact disc_ex.
Qed.
Lemma w11_good args : well_formed (index_file 0 p_ex l) (length l) -> good_index toy0 (argv11 args) (w11 l lj d io).
Proof. intros Hw ino p n X HV. change (cmd_index (argv11 args)) with (bs "i") in X. destruct (w11_params ino p n X HV) as (-> & _ & ->). now rewrite Nat2N.id. Qed.
End W11.

Definition l11 : list (N * bytes) := [(80, id1); (145, id2)].
Definition l_zero : list (N * bytes) := [(0, toyH []); (80, id1)].
Definition d11 : bytes := c1 ++ c3.
Definition tiny : bytes := firstn 20 data_ex.
Lemma small11 : small l11. Proof. split; [good_ids|cbn; lia]. Qed.
Lemma small_zero : small l_zero. Proof. split; [good_ids|cbn; lia]. Qed.
Lemma small_nil : small []. Proof. split; [constructor|cbn; lia]. Qed.
Lemma wf11 : well_formed (index_file 0 p_ex l11) 2.
Proof. intros i Hi. destruct i as [|[|i]]; [..|cbn in Hi; lia]; (split; [vm_compute; discriminate|]; split; [vm_compute; reflexivity|]; intros Hs He); try (vm_compute in He; discriminate); reflexivity. Qed.
Lemma wf_zero : well_formed (index_file 0 p_ex l_zero) 2.
Proof. intros i Hi. destruct i as [|[|i]]; [..|cbn in Hi; lia]; (split; [vm_compute; discriminate|]; split; [vm_compute; reflexivity|]; intros Hs He); try (vm_compute in He; discriminate); reflexivity. Qed.
Lemma wf_nil : well_formed (index_file 0 p_ex []) 0. Proof. intros i Hi. lia. Qed.
Lemma filled11 : filled (index_file 0 p_ex l11) 2.
Proof. split; [discriminate|]. intros i Hi. destruct i as [|[|i]]; [..|cbn in Hi; lia]; split; vm_compute; reflexivity. Qed.
Lemma bytes11 : bytes_ok d11 /\ blen d11 < 1000000 /\ bytes_ok tiny /\ blen tiny < 1000000.
Proof. repeat split; try (vm_compute; reflexivity); apply small_bytes; vm_compute; reflexivity. Qed.
Lemma big11_clean : error_free big11 /\ ~ In IoZero big11.
Proof. split; [apply Forall_forall; intros x Hx; apply repeat_spec in Hx; now subst|]. intros H. apply repeat_spec in H. discriminate. Qed.

(** All kinds of stores; everything is as it should be. *)
Definition args11 : list bytes := [bs "t"; bs "d:j"; bs "s"].
Lemma args11_usual : Forall usual args11. Proof. unfold usual. repeat (constructor; [tauto|]). constructor. Qed.
Lemma sane11 : sane toy0 (argv11 args11) (w11 l11 l11 d11 big11).
Proof. destruct bytes11 as (A & B & _). apply w11_sane; auto using small11, args11_usual. Qed.
Lemma unproblematic11 : unproblematic toy0 (argv11 args11) (w11 l11 l11 d11 big11).
Proof.
  constructor.
  - apply big11_clean.
  - intros ino p n _ X HV. destruct (w11_params l11 l11 d11 big11 small11 ino p n X HV) as (-> & _ & ->). exact filled11.
  - intros ino p n arg path s X HV Hin (ip & HA) Y. destruct (w11_params l11 l11 d11 big11 small11 ino p n X HV) as (_ & -> & _).
    destruct Hin as [<-|[<-|[<-|[]]]]; vm_compute in HA; try discriminate; injection HA as <- <-; vm_compute in Y; injection Y as <-; (split; [vm_compute; discriminate|vm_compute; reflexivity]).
  - intros arg path ip s p n Hin HA Y HV. assert (ip = bs "j") as ->. { destruct Hin as [<-|[<-|[<-|[]]]]; vm_compute in HA; try discriminate; now injection HA as <- <-. }
    destruct (w11_side l11 l11 d11 big11 small11 s p n Y HV) as (-> & ->). exact filled11.
Qed.
Lemma run11 : let r := main toy0 (argv11 args11) (w11 l11 l11 d11 big11) in (fst r, w_files (snd r) 116%nat) = (Ok 0, c1 ++ c2).
Proof. vm_compute. reflexivity. Qed.

(** Assertions that fail *)
Definition aborts (args : list bytes) (w : world) : Prop :=
  sane toy0 (argv11 args) w /\ good_index toy0 (argv11 args) w /\ error_free (w_io w) /\ w_alloc w = [] /\ fst (main toy0 (argv11 args) w) = Abort.
Ltac all_usual := unfold usual; repeat (constructor; [tauto|]); constructor.
Lemma empty_index_aborts : aborts [bs "t"; bs "s"] (w11 [] l11 d11 big11).
Proof.
  destruct bytes11 as (A & B & _). split; [apply w11_sane; auto using small_nil, small11; all_usual|]. split; [apply w11_good; auto using small_nil, wf_nil|].
  split; [apply big11_clean|]. split; [reflexivity|]. vm_compute. reflexivity.
Qed.
Lemma empty_chunk_aborts : aborts [bs "t"; bs "s"] (w11 l_zero l11 d11 big11).
Proof.
  destruct bytes11 as (A & B & _). split; [apply w11_sane; auto using small_zero, small11; all_usual|]. split; [apply w11_good; auto using small_zero, wf_zero|].
  split; [apply big11_clean|]. split; [reflexivity|]. vm_compute. reflexivity.
Qed.
Lemma small_store_aborts : aborts [bs "s"; bs "d"] (w11 l11 l11 tiny big11).
Proof.
  destruct bytes11 as (_ & _ & A & B). split; [apply w11_sane; auto using small11; all_usual|]. split; [apply w11_good; auto using small11, wf11|].
  split; [apply big11_clean|]. split; [reflexivity|]. vm_compute. reflexivity.
Qed.
Lemma side_empty_aborts : aborts [bs "s"; bs "d:j"] (w11 l11 [] d11 big11).
Proof.
  destruct bytes11 as (A & B & _). split; [apply w11_sane; auto using small11, small_nil; all_usual|]. split; [apply w11_good; auto using small11, wf11|].
  split; [apply big11_clean|]. split; [reflexivity|]. vm_compute. reflexivity.
Qed.
Lemma side_chunk_aborts : aborts [bs "s"; bs "d:j"] (w11 l11 l_zero d11 big11).
Proof.
  destruct bytes11 as (A & B & _). split; [apply w11_sane; auto using small11, small_zero; all_usual|]. split; [apply w11_good; auto using small11, wf11|].
  split; [apply big11_clean|]. split; [reflexivity|]. vm_compute. reflexivity.
Qed.
