(** A server with a corrupted chunk, for C93. *)
From Verif Require Import Base Lib SpecBasic SpecCrypto SpecEnv Utils Discr Chunker Encrypt Caibx StoreHttp Chain MainProg SpecChunker SpecCaibx SpecStore SpecHttp SpecMain SpecRun SpecOrder SpecAvail SpecUpdate SpecGen SpecSource
  PfBasic PfKeyspec PfCaibx PfCaibx2 PfIndex PfUpdate PfOrder PfSource3 Toy Ex1 Ex2 Ex4 Ex5 Ex6 Ex8 Ex9 Ex26.
Local Open Scope N_scope.

(** The setting of [met90]: the image consists of [x1], [x2] and [x3], the local store has [x1] and [x3].  The server has [x2] with another
    first byte; asked for anything else it says that it does not have it. *)
Definition bad2 : bytes := 9 :: repeat 2 79.
Definition srv28 (url : bytes) (n : nat) : perf :=
  if Nat.eqb (n mod 3) 2 then
    match parse_hex (firstn 64 (skipn 16 url)) with
    | Some id => if beq id (toyH x2) then mkPerf (Some 200) [magic; bad2] CURLE_OK else mkPerf (Some 404) [] CURLE_OK
    | None => mkPerf (Some 404) [] CURLE_OK
    end
  else mkPerf None [] CURLE_COULDNT_CONNECT.
Definition E28 : env := mkEnv toyH isort (fun l id => lsearch l id 0) strip srv28 open_char open_char (fun _ => KReg) (fun _ => None) true true false.
Definition f28 : bytes := casync_index (shop [x2]) 0 p_ex 45 (x1 ++ x2 ++ x3).

Lemma server28 : server_ok E28.
Proof.
  intros u k s. cbn [E28 e_server]. unfold srv28. destruct (Nat.eqb _ _); [|intros []]. destruct (parse_hex _) as [id|]; [|intros []]. destruct (beq id (toyH x2)); [|intros []].
  cbn [p_segs]. intros [<-|[<-|[]]]; vm_compute; reflexivity.
Qed.
Lemma sane90 n : sane (shop [x2]) argv26 (w90 n).
Proof.
  apply sane26.
  - intros P [<-|[]]. split; [discriminate|vm_compute; reflexivity].
  - vm_compute. repeat split; discriminate.
  - exact disc_ex.
  - vm_compute. discriminate.
  - apply small_bytes. vm_compute. reflexivity.
  - vm_compute. reflexivity.
  - vm_compute. discriminate.
  - vm_compute. reflexivity.
  - apply small_bytes. reflexivity.
  - vm_compute. reflexivity.
  - destruct chunks90 as (-> & ->). intros c [<-|[<-|[<-|[]]]]; [right|left; now left|right]; (split; [cbn [In]; auto|]); intros [X|[]]; vm_compute in X; discriminate X.
Qed.
Lemma sane28 n : sane E28 argv26 (w90 n).
Proof. destruct (sane90 n) as [S1 S2 S3 S4 S5 S6 S7 S8 S9]. constructor; [exact S1|exact server28|exact S3|exact S4|exact S5|exact S6|exact S7|exact S8|exact S9]. Qed.
Lemma wf28 : well_formed f28 3.
Proof.
  intros [|[|[|i]]] Hi; [..|lia]; (split; [vm_compute; discriminate|split; [vm_compute; reflexivity|intros _ X; vm_compute in X; discriminate X]]).
Qed.
Lemma valid28 : valid_index f28 p_ex (N.of_nat 3).
Proof.
  replace 3%nat with (length (chunks p_ex 45 (x1 ++ x2 ++ x3))) by (destruct chunks90 as (_ & ->); reflexivity). refine (valid26 [x2] p_ex 45 (x1 ++ x3) (x1 ++ x2 ++ x3) [7] _ _ _ _ _ _ _ _ 0).
  - intros P [<-|[]]. split; [discriminate|vm_compute; reflexivity].
  - vm_compute. repeat split; discriminate.
  - vm_compute. discriminate.
  - vm_compute. reflexivity.
  - vm_compute. discriminate.
  - vm_compute. reflexivity.
  - vm_compute. reflexivity.
  - destruct chunks90 as (-> & ->). intros c [<-|[<-|[<-|[]]]]; [right|left; now left|right]; (split; [cbn [In]; auto|]); intros [X|[]]; vm_compute in X; discriminate X.
Qed.
Lemma good28 E n : e_open E = open_char -> good_index E argv26 (w90 n).
Proof.
  intros HE ino p k Ho HV. rewrite HE in Ho. assert (ino = 105%nat) as -> by (vm_compute in Ho; congruence). change (w_files (w90 n) 105%nat) with f28 in *.
  destruct (valid_same _ _ _ _ _ valid28 HV) as (_ & ->). rewrite Nat2N.id. exact wf28.
Qed.
Lemma index28 E n : e_open E = open_char -> the_index E argv26 (w90 n) f28 3.
Proof. intros HE. exists 105%nat, p_ex. rewrite HE. split; [reflexivity|]. split; [reflexivity|exact valid28]. Qed.
Lemma entry28 : ent_id f28 1 = toyH x2 /\ 0 < ent_size f28 1 /\ N.to_nat (ent_size f28 1) = 80%nat.
Proof. vm_compute. auto. Qed.

Lemma fed28 P h c p : fed E28 (magic ++ P) P h c p -> fed (shop [x2]) (magic ++ P) P h c p.
Proof. induction 1; econstructor; eauto. Qed.
Lemma decodes28 P : decodes E28 (magic ++ P) P.
Proof. destruct (decodes26 [x2] P) as (A & B). split; [exact A|]. intros h c p inp rest room H. apply B. now apply fed28. Qed.
Lemma only28 : only_has E28 site None (toyH x2) bad2.
Proof.
  exists (magic ++ bad2). split; [apply decodes28|]. split; [vm_compute; discriminate|]. intros url Hu m. apply url9 in Hu.
  cbn [on_the_wire]. unfold fails_early, serves. cbn [E28 e_server]. unfold srv28. rewrite Hu.
  destruct (Nat.eqb (m mod 3) 2); [right; left|left; split; [reflexivity|left; reflexivity]].
  rewrite (proj2 (beq_eq _ _) eq_refl). cbn [p_code p_end p_segs concat]. rewrite app_nil_r. repeat split. intros [Y|[Y|[]]]; discriminate Y.
Qed.
Lemma http28 n base key : http_store E28 argv26 (w90 n) base key -> base = site /\ key = None.
Proof.
  intros (arg & Hin & Hd & Hs). change (cmd_stores argv26) with [bs "s"; site] in Hin. destruct Hin as [<-|[<-|[]]].
  - inversion Hd as [|rest _ X| |]. vm_compute in X. discriminate X.
  - apply (denotes26 [x2] (w90 n)). destruct Hs as (url & params & Hu & Hb & Hk). exists url, params. split; [exact Hu|]. split; [exact Hb|]. clear - Hk.
    assert (T : forall spec t, key_text E28 (w90 n) spec t -> key_text (shop [x2]) (w90 n) spec t) by (intros spec t [x H1|v x H1 H2|q ino H1 H2 H3]; [now apply kt_lit|now apply kt_env with v|now apply kt_file with q]).
    induction Hk; [constructor|eapply pk_last; eauto|eapply pk_more; eauto].
Qed.
Lemma local28 n ino before D after : local_store E28 argv26 ino -> w_files (w90 n) ino = before ++ D ++ after -> length D = 80%nat -> toyH D <> toyH x2.
Proof.
  intros (arg & path & ip & Hin & Hd & Ho) Hf L. change (cmd_stores argv26) with [bs "s"; site] in Hin. destruct Hin as [<-|[<-|[]]].
  2:{ exfalso. inversion Hd; match goal with X : forall rest, site <> _ |- _ => elim (X (bs "://h/x")); vm_compute; reflexivity end. }
  assert (path = bs "s") as ->.
  { remember (ArgLocal path ip) as a eqn:Ea. destruct Hd as [|rest|_ _ _|q i _ _ X3 _]; try discriminate Ea; injection Ea as <- <-; [reflexivity|].
    exfalso. assert (Z : In 58 (bs "s")) by (rewrite X3; apply in_or_app; right; now left). vm_compute in Z. destruct Z as [Z|[]]. discriminate Z. }
  assert (ino = 115%nat) as -> by (vm_compute in Ho; congruence). change (w_files (w90 n) 115%nat) with (x1 ++ x3) in Hf.
  assert (Hlen : (length before <= 30)%nat) by (apply (f_equal (@length N)) in Hf; rewrite !app_length, L in Hf; unfold x1, x3 in Hf; rewrite !repeat_length in Hf; lia).
  assert (HD : D = firstn 80 (skipn (length before) (x1 ++ x3))).
  { rewrite Hf, skipn_app, skipn_all, Nat.sub_diag. cbn [app skipn]. rewrite <- L. symmetry. rewrite firstn_app, Nat.sub_diag, firstn_all. cbn [firstn]. apply app_nil_r. }
  assert (Hall : forallb (fun k => negb (beq (toyH (firstn 80 (skipn k (x1 ++ x3)))) (toyH x2))) (seq 0 31) = true) by (vm_compute; reflexivity).
  rewrite forallb_forall in Hall. specialize (Hall (length before) ltac:(apply in_seq; lia)). rewrite <- HD in Hall. intros X. rewrite X, (proj2 (beq_eq _ _) eq_refl) in Hall. discriminate Hall.
Qed.
Lemma old28 n i : (i < 3)%nat -> ent_id f28 i = ent_id f28 1 -> exists k, (k <= i)%nat /\ ~ holds E28 true f28 k (w_files (w90 n) 116%nat).
Proof. intros _ _. exists 0%nat. split; [lia|]. intros (X & _). vm_compute in X. now apply X. Qed.

(** A run with the honest server: the first and the last piece come from the local store. *)
Lemma from28 n : comes_from (shop [x2]) true argv26 (w90 n) f28 (w_files (w90 n) 116%nat) 3 (ent_id f28 0) x1.
Proof.
  eapply (cf_local _ _ _ _ _ _ _ _ _ 115%nat [] x3); [|reflexivity]. exists (bs "s"), (bs "s"), None. split; [now left|]. split; [|reflexivity].
  apply doc_local; [discriminate|intros rest X; vm_compute in X; discriminate X|intros X; vm_compute in X; destruct X as [X|[]]; discriminate X].
Qed.
Lemma corrupted28 n : (sane E28 argv26 (w90 n) /\ good_index E28 argv26 (w90 n) /\ hash_reliable E28 (w90 n) /\ e_open_rw E28 (cmd_target argv26) = Some 116%nat) /\
  (the_index E28 argv26 (w90 n) f28 3 /\ 0 < ent_size f28 1) /\
  (forall base key, http_store E28 argv26 (w90 n) base key -> exists P, only_has E28 base key (ent_id f28 1) P /\ blen P <= BUF_SIZE /\ e_H E28 P <> ent_id f28 1) /\
  (forall ino before D after, local_store E28 argv26 ino -> w_files (w90 n) ino = before ++ D ++ after -> length D = N.to_nat (ent_size f28 1) -> e_H E28 D <> ent_id f28 1) /\
  (forall i, (i < 3)%nat -> ent_id f28 i = ent_id f28 1 -> exists k, (k <= i)%nat /\ ~ holds E28 true f28 k (w_files (w90 n) 116%nat)).
Proof.
  destruct entry28 as (-> & Hp & ->). split; [split; [apply sane28|]; split; [apply good28; reflexivity|]; split; [now apply toy_reliable|reflexivity]|].
  split; [split; [now apply index28|exact Hp]|]. split; [|split].
  - intros base key H. destruct (http28 _ _ _ H) as (-> & ->). exists bad2. split; [exact only28|]. split; [vm_compute; discriminate|vm_compute; discriminate].
  - intros ino before D after H1 H2 H3. eapply local28; eauto.
  - intros i H1 H2. apply old28; [exact H1|]. destruct entry28 as (-> & _). exact H2.
Qed.
Lemma honest28 n : sane (shop [x2]) argv26 (w90 n) /\ good_index (shop [x2]) argv26 (w90 n) /\ the_index (shop [x2]) argv26 (w90 n) f28 3 /\
  (exists w', main (shop [x2]) argv26 (w90 60) = (Ok 0, w')) /\ comes_from (shop [x2]) true argv26 (w90 n) f28 (w_files (w90 n) 116%nat) 3 (ent_id f28 0) x1.
Proof.
  split; [apply sane90|]. split; [now apply good28|]. split; [now apply index28|]. split; [|apply from28].
  pose proof run90 as R. cbv zeta in R. destruct (main (shop [x2]) argv26 (w90 60)) as [o w']. exists w'. cbn [fst snd] in R. congruence.
Qed.
