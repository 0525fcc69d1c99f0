(** Witnesses for Properties10.v. *)
From Verif Require Import Base Lib SpecBasic SpecEnv Utils Discr Chunker Caibx Index StoreLocal Target StoreHttp Chain MainProg SpecChunker SpecCaibx SpecStore SpecHttp SpecMain SpecRun
  SpecMemory SpecLive PfUtils PfBasic PfIO PfCaibx PfCaibx2 PfFrame PfSetup PfLive3 Toy Ex1 Ex2 Ex4 Ex6.
Local Open Scope N_scope.

(** "d" is a character device that can be read at an offset; "j" is an index that claims that it starts with c1 and c2. *)
Definition kind10 (ino : nat) : fkind := if Nat.eqb ino 100 then KOther else KReg.
Definition E10 (k : nat -> fkind) : env := toy_env no_server open_char open_char k (fun _ => None).
Definition l10 : list (N * bytes) := [(80, id1); (145, id2)].
Definition argv10 : list bytes := [bs "csn"; bs "i"; bs "t"; bs "d:j"; bs "s"].
Definition w10 (io : list ioev) : world :=
  mkWorld (files_of [(115%nat, data_ex); (105%nat, index_file 0 p_ex l10); (106%nat, index_file 0 p_ex l10); (100%nat, zeros 400)]) io [] false [] 0 [].

Lemma l10_ok : Forall (fun e => good_id (snd e)) l10. Proof. good_ids. Qed.
Lemma w10_index io : w_files (w10 io) 105%nat = index_file 0 p_ex l10. Proof. reflexivity. Qed.
Lemma w10_files io : files_ok (w10 io).
Proof.
  intros i. unfold w10, files_of. cbn [w_files find fst].
  destruct (Nat.eqb_spec 115 i); [cbn [snd]; split; [exact data_ex_ok|vm_compute; reflexivity]|].
  destruct (Nat.eqb_spec 105 i); [cbn [snd]; split; [apply index_file_ok, l10_ok|vm_compute; reflexivity]|].
  destruct (Nat.eqb_spec 106 i); [cbn [snd]; split; [apply index_file_ok, l10_ok|vm_compute; reflexivity]|].
  destruct (Nat.eqb_spec 100 i); [cbn [snd]; split; [apply small_bytes; vm_compute; reflexivity|vm_compute; reflexivity]|].
  split; [constructor|vm_compute; reflexivity].
Qed.
Lemma sane10 k io : sane (E10 k) argv10 (w10 io).
Proof.
  assert (Ec : is_csn argv10 = true) by reflexivity. assert (Ei : cmd_index argv10 = bs "i") by reflexivity. assert (Et : cmd_target argv10 = bs "t") by reflexivity.
  assert (Es : cmd_stores argv10 = [bs "d:j"; bs "s"]) by reflexivity. constructor.
  - apply toy_ok.
  - apply toy_server_ok.
  - intros v s X. discriminate.
  - apply w10_files.
  - rewrite Es. apply Forall_forall. intros a [<-|[<-|[]]] X; cbn in X; intuition discriminate.
  - congruence.
  - rewrite Ei, Et. intros ino X Y. vm_compute in X, Y. congruence.
  - rewrite Et, Es. intros ino arg path X [<-|[<-|[]]] (ip & HA) Y; vm_compute in HA; injection HA as <- <-; vm_compute in X, Y; congruence.
  - rewrite Ei. intros ino p n arg path X HV _ _. assert (ino = 105%nat) as -> by (vm_compute in X; congruence). rewrite w10_index in HV.
    destruct (valid_same _ _ _ _ _ (index_valid l10 l10_ok ltac:(cbn; lia)) HV) as (-> & _). exists 45. exact disc_ex.
Qed.
Lemma good10 k io : good_index (E10 k) argv10 (w10 io).
Proof.
  intros ino p n X HV. assert (ino = 105%nat) as -> by (vm_compute in X; congruence). rewrite w10_index in *.
  destruct (valid_same _ _ _ _ _ (index_valid l10 l10_ok ltac:(cbn; lia)) HV) as (-> & ->). rewrite Nat2N.id.
  intros i Hi. destruct i as [|[|i]]; [..|cbn in Hi; lia]; (split; [vm_compute; discriminate|]; split; [vm_compute; reflexivity|]; intros Hs He); try (vm_compute in He; discriminate); reflexivity.
Qed.
Lemma special10 : special_free (E10 (fun _ => KReg)) (cmd_target argv10) (cmd_stores argv10).
Proof. intros arg path ip ino _ _ _ X. discriminate. Qed.

Definition big (n : nat) : list ioev := repeat (IoN 1000) n.
(** Everything has been written when the index is freed for the second time. *)
Lemma double_free : let r := main (E10 kind10) argv10 (w10 (big 400)) in (fst r, w_files (snd r) 116%nat) = (UB, c1 ++ c2).
Proof. vm_compute. reflexivity. Qed.
Lemma no_double_free : let r := main (E10 (fun _ => KReg)) argv10 (w10 (big 400)) in (fst r, w_files (snd r) 116%nat) = (Ok 0, c1 ++ c2).
Proof. vm_compute. reflexivity. Qed.
Lemma double_free_fine : exists E argv w, sane E argv w /\ good_index E argv w /\ error_free (w_io w) /\ w_alloc w = [] /\ fst (main E argv w) = UB.
Proof.
  exists (E10 kind10), argv10, (w10 (big 400)). split; [apply sane10|]. split; [apply good10|]. split; [apply Forall_forall; intros x Hx; apply repeat_spec in Hx; now subst|].
  split; [reflexivity|]. pose proof double_free as H. destruct (main _ _ _) as [o w']. cbn [fst snd] in *. congruence.
Qed.

(** Termination *)
Lemma terminates_soft E argv F : env_ok E -> e_getenv E (bs "CSN_KCAPI_DRIVER") = None ->
  exists B, forall w, (forall i, w_files w i = F i) -> w_kcapi w = false -> (B <= settled (w_io w))%nat -> fst (main E argv w) <> Halt.
Proof.
  intros HE Hk. destruct (terminates E argv F false HE (fun _ => Hk)) as (B & HB). exists B. intros w Hw Hc Hs X.
  destruct (HB w Hw (fun _ => Hc) X) as [(_ & Y)|(Y & _)]; [lia|discriminate].
Qed.
Lemma terminates_any E argv F : env_ok E ->
  exists B, forall w, (forall i, w_files w i = F i) -> (B <= settled (w_io w))%nat -> (B <= ksettled (w_kev w))%nat -> fst (main E argv w) <> Halt.
Proof.
  intros HE. destruct (terminates E argv F true HE ltac:(discriminate)) as (B & HB). exists B. intros w Hw Hs Hks X.
  destruct (HB w Hw ltac:(discriminate) X) as [(_ & Y)|(_ & _ & Y)]; lia.
Qed.
Lemma halts_waiting E argv w : env_ok E -> fst (main E argv w) = Halt -> w_io (snd (main E argv w)) = [] \/ w_kev (snd (main E argv w)) = [].
Proof.
  intros HE X. destruct (terminates E argv (w_files w) true HE ltac:(discriminate)) as (B & HB).
  destruct (HB w (fun _ => eq_refl) ltac:(discriminate) X) as [(Y & _)|(_ & Y & _)]; auto.
Qed.

(** The same run with an interruption before every answer, and with too few answers. *)
Definition intr (n : nat) : list ioev := concat (repeat [IoIntr; IoIntr; IoN 1000] n).
Lemma intr_run : let r := main (E10 (fun _ => KReg)) argv10 (w10 (intr 400)) in (fst r, w_files (snd r) 116%nat, settled (intr 400)) = (Ok 0, c1 ++ c2, 400%nat).
Proof. vm_compute. reflexivity. Qed.
Lemma short_run : let r := main (E10 (fun _ => KReg)) argv10 (w10 (intr 20)) in (fst r, w_io (snd r)) = (Halt, []).
Proof. vm_compute. reflexivity. Qed.
Lemma intr_only : let r := main (E10 (fun _ => KReg)) argv10 (w10 (repeat IoIntr 1000)) in (fst r, w_io (snd r), settled (repeat IoIntr 1000)) = (Halt, [], 0%nat).
Proof. vm_compute. reflexivity. Qed.
