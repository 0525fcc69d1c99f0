(** Witnesses for Properties9.v: an image that is fetched from a server. *)
From Verif Require Import Base Lib SpecBasic SpecCrypto SpecEnv Utils Encrypt Caibx StoreHttp Chain MainProg SpecCaibx SpecStore SpecHttp SpecRun SpecAvail
  PfUtils PfBasic PfIO PfRead PfKeyspec PfCaibx PfCaibx2 PfIndex PfFrame PfHttp PfAvail Toy Ex1 Ex2 Ex4 Ex5 Ex6.
Local Open Scope N_scope.

(** Of three transfers two fail; the third delivers the chunk whose id is in the URL, in two parts. *)
Definition srv9 (pieces : list bytes) (url : bytes) (n : nat) : perf :=
  if Nat.eqb (n mod 3) 2 then
    match parse_hex (firstn 64 (skipn 16 url)) with
    | Some id => match find (fun P => beq (toyH P) id) pieces with Some P => mkPerf (Some 200) [firstn 2 P; skipn 2 P] CURLE_OK | None => mkPerf (Some 404) [] CURLE_OK end
    | None => mkPerf (Some 404) [] CURLE_OK
    end
  else mkPerf None [] CURLE_COULDNT_CONNECT.
Definition mirror (pieces : list bytes) : env := toy_env (srv9 pieces) open_char open_char (fun _ => KReg) (fun _ => None).
Definition pa : bytes := [40; 181; 47; 253; 1; 2].
Definition pb : bytes := [40; 181; 47; 253; 3].
Definition pieces9 : list bytes := [pa; pb; pa].
Definition l9 : list (N * bytes) := [(6, toyH pa); (11, toyH pb); (17, toyH pa)].
Definition E9 : env := mirror pieces9.
Definition site : bytes := bs "http://h/x".
Definition argv9 : list bytes := [bs "csn"; bs "i"; bs "t"; bs "t"; site].
Definition w9 (n : nat) : world := toy_world [(105%nat, index_file 0 p_ex l9); (116%nat, pb)] n.

Lemma fed9 pieces f h c p : fed (mirror pieces) f f h c p -> c = p /\ (c <= length f)%nat.
Proof.
  induction 1 as [|h c p inp rest room dc dp H IH Hi Hs Hr HZ]; [split; [reflexivity|lia]|].
  destruct IH as [-> IH]. cbn in HZ. injection HZ as <- <-.
  apply (f_equal (@length N)) in Hs. rewrite skipn_length, app_length in Hs. rewrite firstn_length. lia.
Qed.
Lemma decodes9 pieces t : decodes (mirror pieces) ([40; 181; 47; 253] ++ t) ([40; 181; 47; 253] ++ t).
Proof.
  split; [eauto|]. set (f := [40; 181; 47; 253] ++ t). clearbody f. intros h c p inp rest room H Hi Hs Hr.
  apply fed9 in H as [<- H]. pose proof (f_equal (@length N) Hs) as L. rewrite skipn_length, app_length in L.
  exists (length inp), inp. split; [cbn; rewrite Nat.min_l by lia; now rewrite firstn_all|]. split; [lia|].
  exists rest. split; [exact Hs|]. intros ->. auto.
Qed.

Lemma l9_ok : Forall (fun e => good_id (snd e)) l9. Proof. good_ids. Qed.
Lemma files9 n : files_ok (w9 n).
Proof.
  intros i. unfold w9, toy_world, files_of. cbn [w_files find fst].
  destruct (Nat.eqb_spec 105 i); [cbn [snd]; split; [apply index_file_ok, l9_ok|]|].
  - unfold blen. rewrite index_file_length by exact l9_ok. cbn. reflexivity.
  - destruct (Nat.eqb_spec 116 i); [cbn [snd]; split; [apply small_bytes|]; vm_compute; reflexivity|]. split; [constructor|vm_compute; reflexivity].
Qed.
Lemma index9 n : w_files (w9 n) 105%nat = index_file 0 p_ex l9. Proof. reflexivity. Qed.
Lemma valid9 n : valid_index (w_files (w9 n) 105%nat) p_ex 3. Proof. apply (index_valid l9 l9_ok). cbn; lia. Qed.
Lemma sane9 n : sane E9 argv9 (w9 n).
Proof.
  constructor.
  - apply toy_ok.
  - intros u k s. cbn [E9 mirror toy_env e_server]. unfold srv9. destruct (Nat.eqb _ _); [|intros []]. destruct (parse_hex _); [|intros []].
    destruct (find _ pieces9) as [P|] eqn:F; [|intros []]. apply find_some in F as (F & _). cbn [p_segs].
    destruct F as [<-|[<-|[<-|[]]]]; intros [<-|[<-|[]]]; vm_compute; reflexivity.
  - intros v s X. discriminate X.
  - apply files9.
  - apply Forall_forall. intros a [<-|[<-|[]]] X; [destruct X as [X|[]]; discriminate X|]. assert (Y : existsb (fun c => c =? 0) site = true) by (apply existsb_exists; exists 0; auto). vm_compute in Y. discriminate Y.
  - intros X. vm_compute in X. discriminate X.
  - intros ino X Y. vm_compute in X, Y. congruence.
  - intros ino arg path X [<-|[<-|[]]] (ip & HA) Y; vm_compute in HA; discriminate HA.
  - intros ino p k arg path X HV [<-|[<-|[]]] (ip & HA); vm_compute in HA; discriminate HA.
Qed.
Lemma described9 n : described E9 argv9 (w9 n) pieces9.
Proof.
  intros ino p k X HV. assert (ino = 105%nat) as -> by (vm_compute in X; congruence).
  destruct (valid_same _ _ _ _ _ (valid9 n) HV) as (-> & ->). rewrite index9. split; [reflexivity|]. intros i P HP.
  assert (Hi : (i < 3)%nat) by (change 3%nat with (length pieces9); apply nth_error_Some; congruence).
  destruct i as [|[|[|i]]]; [..|lia]; cbn [nth_error pieces9] in HP; injection HP as <-; vm_compute; repeat split; reflexivity.
Qed.
Lemma sizes9 P : In P pieces9 -> 0 < blen P <= BUF_SIZE.
Proof. intros [<-|[<-|[<-|[]]]]; (split; [vm_compute; reflexivity|vm_compute; discriminate]). Qed.
Lemma room9 n ino : e_open_rw E9 (cmd_target argv9) = Some ino -> has_room E9 (w9 n) ino (blen (concat pieces9)).
Proof. intros X. split; [vm_compute; discriminate|exact Logic.I]. Qed.
Lemma remote9 : Forall (remote (cmd_target argv9)) (cmd_stores argv9).
Proof.
  constructor; [left; vm_compute; reflexivity|]. constructor; [|constructor]. right. split; [vm_compute; reflexivity|].
  intros X. assert (Y : existsb (fun c => c =? 35) site = true) by (apply existsb_exists; exists 35; auto). vm_compute in Y. discriminate Y.
Qed.
Lemma arg9 : In site (cmd_stores argv9) /\ classify_arg (cmd_target argv9) site = ArgHttp site.
Proof. split; [right; left; reflexivity|vm_compute; reflexivity]. Qed.
Lemma denotes9 w base key : store_denotes E9 w site base key -> base = site /\ key = None.
Proof.
  intros (url & params & Hu & Hb & Hk).
  assert (N35 : ~ In 35 site). { intros X. assert (Y : existsb (fun c => c =? 35) site = true) by (apply existsb_exists; exists 35; auto). vm_compute in Y. discriminate Y. }
  destruct Hu as [(<- & -> & _)|(Hu & _)]; [|elim N35; rewrite Hu; apply in_or_app; right; now left].
  split.
  - destruct Hb as [Hb|(<- & _)]; [|reflexivity]. apply (f_equal (@rev N)) in Hb. rewrite rev_app_distr in Hb. vm_compute in Hb. discriminate Hb.
  - inversion Hk; reflexivity.
Qed.
Lemma denotes_site w : store_denotes E9 w site site None.
Proof.
  exists site, []. split; [left; split; [reflexivity|]; split; [reflexivity|]|].
  - intros X. assert (Y : existsb (fun c => c =? 35) site = true) by (apply existsb_exists; exists 35; auto). vm_compute in Y. discriminate Y.
  - split; [|constructor]. right. split; [reflexivity|]. intros u X. apply (f_equal (@rev N)) in X. rewrite rev_app_distr in X. vm_compute in X. discriminate X.
Qed.
Lemma find9 P : In P pieces9 -> find (fun Q => beq (toyH Q) (toyH P)) pieces9 = Some P.
Proof. intros [<-|[<-|[<-|[]]]]; vm_compute; reflexivity. Qed.
Lemma url9 P url : casync_url site (toyH P) url false -> parse_hex (firstn 64 (skipn 16 url)) = Some (toyH P).
Proof.
  intros (hx & Hd & _ & ->). pose proof (hex_denotes_length _ _ Hd) as L. rewrite toyH_length in L || (replace (length (toyH P)) with 32%nat in L by (symmetry; apply (proj1 (toy_ok no_server open_char open_char (fun _ => KReg) (fun _ => None))))).
  do 64 (destruct hx as [|? hx]; [discriminate L|]). destruct hx; [|discriminate L]. apply parse_hex_denotes in Hd. exact Hd.
Qed.
Lemma has9 w base key P : store_denotes E9 w site base key -> In P pieces9 -> has_chunk E9 base key P.
Proof.
  intros Hd Hin. destruct (denotes9 _ _ _ Hd) as (-> & ->). exists P. split; [|split].
  - destruct Hin as [<-|[<-|[<-|[]]]]; apply (decodes9 pieces9).
  - destruct Hin as [<-|[<-|[<-|[]]]]; vm_compute; discriminate.
  - cbn [E9 mirror toy_env e_H]. intros url Hu m. apply url9 in Hu.
    assert (S3 : forall k, ((k mod 3 = 2)%nat -> serves E9 url k P) /\ ((k mod 3 <> 2)%nat -> fails_early E9 url k)).
    { intros k. unfold serves, fails_early. cbn [E9 mirror toy_env e_server]. unfold srv9. destruct (Nat.eqb_spec (k mod 3) 2) as [X|X]; split; try tauto; intros _.
      - rewrite Hu, (find9 P Hin). cbn [p_code p_end p_segs]. split; [reflexivity|]. split; [reflexivity|]. cbn [concat]. rewrite app_nil_r, firstn_skipn. split; [reflexivity|].
        destruct Hin as [<-|[<-|[<-|[]]]]; intros [Y|[Y|[]]]; discriminate Y.
      - split; [reflexivity|left; reflexivity]. }
    cbn [on_the_wire]. pose proof (Nat.mod_upper_bound m 3 ltac:(discriminate)) as Hm. pose proof (Nat.div_mod m 3 ltac:(discriminate)) as Dm.
    assert (MM : forall i r, (m + i = 3 * (m / 3) + r)%nat -> (r < 3)%nat -> ((m + i) mod 3 = r)%nat).
    { intros i r X Y. rewrite X, Nat.mul_comm, Nat.add_comm, Nat.mod_add by discriminate. now apply Nat.mod_small. }
    assert (MM2 : forall i, (m + i = 3 * (m / 3) + 3)%nat -> ((m + i) mod 3 = 0)%nat).
    { intros i X. rewrite X. replace (3 * (m / 3) + 3)%nat with ((m / 3 + 1) * 3)%nat by lia. apply Nat.mod_mul. discriminate. }
    exists (2 - m mod 3)%nat. split; [lia|]. split.
    + intros i Hi. apply S3. rewrite (MM i (m mod 3 + i)%nat) by lia. lia.
    + apply S3. apply MM; lia.
Qed.

Lemma transfers_repeat n : transfers (repeat (IoN 1000) n) = n.
Proof. induction n; cbn [repeat transfers]; congruence. Qed.
Lemma quiet9 n : error_free (w_io (w9 n)) /\ w_alloc (w9 n) = [] /\ w_kcapi (w9 n) = false /\ transfers (w_io (w9 n)) = n.
Proof.
  split; [apply Forall_forall; intros x Hx; apply repeat_spec in Hx; now subst|]. split; [reflexivity|]. split; [reflexivity|]. apply transfers_repeat.
Qed.
Lemma init9 n : (104 <= n)%nat -> exists su w1, init E9 argv9 (w9 n) = (Ok (InitOk su), w1) /\ w_kcapi w1 = false /\ (n - 104 <= transfers (w_io w1))%nat.
Proof.
  intros Hn. destruct (quiet9 n) as (Q1 & Q2 & Q3 & Q4).
  destruct (init_remote E9 argv9 (w9 n) 105 p_ex 3 116 (files9 n) eq_refl ltac:(cbn; lia) eq_refl Q1 Q2 ltac:(lia) eq_refl (valid9 n) ltac:(discriminate) eq_refl eq_refl ltac:(lia) remote9) as (su & w1 & H1 & H2 & H3).
  exists su, w1. split; [exact H1|]. split; [congruence|lia].
Qed.

Lemma run9 : let r := main E9 argv9 (w9 400) in (fst r, w_files (snd r) 116%nat, w_nperf (snd r)) = (Ok 0, concat pieces9, 6%nat).
Proof. vm_compute. reflexivity. Qed.
