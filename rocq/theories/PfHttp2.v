(** Creation of HTTP stores. *)
From Verif Require Import Base Lib Utils Sha Encrypt StoreHttp SpecBasic SpecCrypto SpecEnv SpecStore SpecHttp
  PfUtils PfBasic PfIO PfEncrypt PfKeyspec PfFrame PfIndex PfLocal PfHttp.
Local Open Scope N_scope.

Lemma strchr_from_spec s c : forall i, match strchr_from s c i with
  | Some p => (i <= p)%nat /\ exists b, s = firstn (p - i) s ++ [c] ++ b /\ skipn (S (p - i)) s = b /\ ~ In c (firstn (p - i) s)
  | None => ~ In c s end.
Proof.
  induction s as [|x s IH]; intros i; cbn [strchr_from]; [auto|].
  destruct (N.eqb_spec x c) as [->|H].
  - split; [lia|]. rewrite Nat.sub_diag. exists s. cbn. auto.
  - specialize (IH (S i)). destruct (strchr_from s c (S i)) as [p|].
    + destruct IH as (Hp & b & E & Eb & Hn). split; [lia|]. exists b. replace (p - i)%nat with (S (p - S i)) by lia.
      cbn [firstn skipn app]. split; [now f_equal|]. split; [exact Eb|]. intros [?|?]; auto.
    + intros [?|?]; auto.
Qed.
Lemma strchr_spec s c : match strchr s c with
  | Some p => s = firstn p s ++ [c] ++ skipn (S p) s /\ ~ In c (firstn p s)
  | None => ~ In c s end.
Proof.
  pose proof (strchr_from_spec s c 0) as H. unfold strchr. destruct (strchr_from s c 0) as [p|]; [|exact H].
  rewrite Nat.sub_0_r in H. destruct H as (_ & b & E & <- & Hn). auto.
Qed.
Lemma strrchr_from_spec s c : forall i r, match strrchr_from s c i r with
  | Some p => (r = Some p /\ ~ In c s) \/ ((i <= p)%nat /\ s = firstn (p - i) s ++ [c] ++ skipn (S (p - i)) s /\ ~ In c (skipn (S (p - i)) s))
  | None => r = None /\ ~ In c s end.
Proof.
  induction s as [|x s IH]; intros i r; cbn [strrchr_from].
  - destruct r; auto.
  - specialize (IH (S i) (if x =? c then Some i else r)).
    destruct (strrchr_from s c (S i) _) as [p|].
    + destruct IH as [(Hr & Hn)|(Hp & E & Hn)].
      * destruct (N.eqb_spec x c) as [->|H]; [injection Hr as ->|left; split; [exact Hr|]; intros [?|?]; auto].
        right. split; [lia|]. rewrite Nat.sub_diag. cbn. auto.
      * right. split; [lia|]. replace (p - i)%nat with (S (p - S i)) by lia. cbn [firstn skipn app]. split; [f_equal; exact E|exact Hn].
    + destruct (N.eqb_spec x c) as [->|H]; [destruct IH; discriminate|]. destruct IH as [? ?]. split; [auto|]. intros [?|?]; auto.
Qed.
Lemma strrchr_spec s c : match strrchr s c with
  | Some p => s = firstn p s ++ [c] ++ skipn (S p) s /\ ~ In c (skipn (S p) s)
  | None => ~ In c s end.
Proof.
  pose proof (strrchr_from_spec s c 0 None) as H. unfold strrchr. destruct (strrchr_from s c 0 None) as [p|]; [|tauto].
  rewrite Nat.sub_0_r in H. destruct H as [[? _]|(_ & H)]; [discriminate|exact H].
Qed.

Lemma strip_slash_spec s : url_base s (strip_slash s).
Proof.
  unfold strip_slash, url_base. pose proof (strrchr_spec s 47) as H. destruct (strrchr s 47) as [p|].
  - destruct H as [E Hn]. destruct (Nat.eqb_spec (S p) (length s)) as [L|L].
    + left. rewrite E at 1. rewrite skipn_all2 by lia. reflexivity.
    + right. split; [reflexivity|]. intros u Hu. apply Hn.
      assert (Lp : (p < length s)%nat). { apply (f_equal (@length N)) in E. rewrite !app_length, firstn_length, skipn_length in E. cbn in E. lia. }
      assert (Lu : length s = S (length u)) by (rewrite Hu, app_length; cbn; lia).
      rewrite Hu, skipn_app. apply in_or_app. right. replace (S p - length u)%nat with 0%nat by lia. left. reflexivity.
  - right. split; [reflexivity|]. intros u ->. apply H, in_or_app. right. left. reflexivity.
Qed.

Lemma wp_files_frame A (m : M A) w : frame none (fun _ => False) m -> forall i, w_files (snd (m w)) i = w_files w i.
Proof. intros H i. apply (H w). exact (fun x => x). Qed.

Lemma key_text_ext E w w' spec s : (forall i, w_files w' i = w_files w i) -> key_text E w' spec s -> key_text E w spec s.
Proof. intros H K. destruct K as [s H1|v s H1 H2|p ino H1 H2 H3]; [now apply kt_lit|now apply kt_env with v|]. rewrite H. now apply kt_file with p. Qed.

Lemma wp_keyspec E spec w : no_nul spec -> env_strings E ->
  wp (encrypt_parse_keyspec E spec) (fun r w' => (forall i, w_files w' i = w_files w i) /\
     match r with Some k => exists s, key_text E w spec s /\ length s = 64%nat /\ hex_denotes s k | None => True end)
     (fun b _ => b = BHalt) w.
Proof.
  intros Hn HE. pose proof (frame_keyspec none (fun _ => False) E spec w) as F.
  unfold encrypt_parse_keyspec in *. unfold wp. unfold bind, ret in *. 
  pose proof (keyspec_buf_spec E key_buf_new spec w Hn HE eq_refl) as H.
  destruct (encrypt_parse_keyspec_buf E key_buf_new spec w) as [[[[|] out]| | |] w']; try contradiction; cbn [key_result].
  - destruct H as [H1 H2]. split; [|exact H2]. intros i. now rewrite H1.
  - destruct H as [H1 H2]. split; [|exact I]. intros i. now rewrite H1.
  - reflexivity.
Qed.

Lemma wp_params E : env_strings E -> forall fuel args k w, (length args < fuel)%nat -> no_nul args ->
  wp (store_handle_params E fuel args k) (fun r w' => (forall i, w_files w' i = w_files w i) /\
     match r with Some kf => params_key (key_text E w) args k kf | None => True end) (fun b _ => b = BHalt) w.
Proof.
  intros HE. induction fuel as [|fuel IH]; intros args k w Hf Hn; [lia|]. cbn [store_handle_params].
  destruct args as [|a0 args0]; [apply wp_ret; split; [auto|constructor]|].
  set (args := a0 :: args0) in *. clearbody args. cbn zeta.
  pose proof (strchr_spec args 44) as HS.
  assert (Hp : forall p : bytes, (exists t, args = p ++ t) -> startswith p (bs "encrypt=") = true -> no_nul (skipn 8 p) /\ p = bs "encrypt=" ++ skipn 8 p).
  { intros p [t Ht] Hsw. pose proof (startswith_skip _ _ Hsw) as E1. change (length (bs "encrypt=")) with 8%nat in E1. split; [|exact E1].
    intros X. apply Hn. rewrite Ht, E1. apply in_or_app. left. apply in_or_app. now right. }
  destruct (strchr args 44) as [n|].
  - destruct HS as [Ea Hnc]. destruct (startswith (firstn n args) (bs "encrypt=")) eqn:EW; [|apply wp_ret; split; auto].
    destruct (Hp (firstn n args)) as [P1 P2]; [eexists; exact Ea|exact EW|].
    apply wp_bind. eapply wp_mono; [apply wp_keyspec; assumption| |auto].
    intros [kk|] w1 (F1 & K1); [|apply wp_ret; auto]. destruct K1 as (s & K1 & K2 & K3).
    apply wp_bind, wp_alloc_allocs. intros al w2 (x & _ & ->) _. destruct al; [|apply wp_ret; cbn; auto].
    cbn [negb]. eapply wp_mono; [apply IH| |auto].
    + assert (L : length args = length (firstn n args ++ [44] ++ skipn (S n) args)) by now rewrite <- Ea. rewrite !app_length in L. change (length [44]) with 1%nat in L. lia.
    + intros X. apply Hn. rewrite Ea. apply in_or_app. right. right. exact X.
    + intros [kf|] w3 (F3 & K4); (split; [intros i; rewrite F3; cbn; apply F1|]); [|exact I].
      rewrite Ea, P2. rewrite <- app_assoc. apply pk_more with (t := s) (k := kk); auto.
      * intros X. apply Hnc. rewrite P2. apply in_or_app. now right.
      * clear -F1 K4. induction K4; [constructor| |];
          match goal with K : key_text _ _ _ _ |- _ => apply (key_text_ext E w) in K; [|cbn; auto] end;
          [eapply pk_last; eauto|eapply pk_more; eauto].
  - destruct (startswith args (bs "encrypt=")) eqn:EW; [|apply wp_ret; split; auto].
    destruct (Hp args) as [P1 P2]; [exists []; now rewrite app_nil_r|exact EW|].
    apply wp_bind. eapply wp_mono; [apply wp_keyspec; assumption| |auto].
    intros [kk|] w1 (F1 & K1); [|apply wp_ret; auto]. destruct K1 as (s & K1 & K2 & K3).
    apply wp_bind, wp_alloc_allocs. intros al w2 (x & _ & ->) _. destruct al; [|apply wp_ret; cbn; auto].
    apply wp_ret. split; [cbn; auto|]. rewrite P2. eapply pk_last; eauto.
    intros X. apply HS. rewrite P2. apply in_or_app. now right.
Qed.

Lemma params_key_ok text args k0 kf : params_key text args k0 kf ->
  (forall k, k0 = Some k -> length k = 32%nat /\ bytes_ok k) -> forall k, kf = Some k -> length k = 32%nat /\ bytes_ok k.
Proof.
  induction 1 as [k|spec k0 t k H1 H2 H3 H4|spec rest k0 t k kf H1 H2 H3 H4 _ IH]; intros H k' E; [auto| |].
  - injection E as <-. split; [apply hex_denotes_length in H4; lia|eapply hex_denotes_ok; eauto].
  - apply IH; [|exact E]. intros k2 Ek. injection Ek as <-. split; [apply hex_denotes_length in H4; lia|eapply hex_denotes_ok; eauto].
Qed.

(** What a new store is. *)
Definition new_store_spec (E : env) (w : world) (arg : bytes) (hs : hstore) : Prop :=
  exists url params, ((arg = url /\ params = [] /\ ~ In 35 arg) \/ (arg = url ++ [35] ++ params /\ ~ In 35 params)) /\
    url_base url (hs_base hs) /\ params_key (key_text E w) params None (hs_key hs) /\
    hs_err hs = 0 /\ hs_dec_cap hs = 0 /\ http_ok hs /\ (forall k, hs_key hs = Some k -> length k = 32%nat /\ bytes_ok k).

Lemma wp_http_new E arg w : env_strings E -> no_nul arg ->
  wp (store_http_new E arg) (fun r w' => match r with Some hs => new_store_spec E w arg hs | None => True end)
     (fun b _ => b = BHalt) w.
Proof.
  intros HE Hn. unfold store_http_new. destruct (negb (e_http_ok E)); [apply wp_ret; exact I|].
  apply wp_bind, wp_alloc_allocs. intros [|] w1 (x1 & _ & ->) _; [|apply wp_ret; exact I].
  apply wp_bind, wp_alloc_allocs. intros [|] w2 (x2 & _ & ->) _; [|apply wp_ret; exact I].
  cbn [negb]. cbn zeta. pose proof (strrchr_spec arg 35) as HS. apply wp_bind.
  assert (Fin : forall url params key w', ((arg = url /\ params = [] /\ ~ In 35 arg) \/ (arg = url ++ [35] ++ params /\ ~ In 35 params)) ->
     params_key (key_text E w) params None key ->
     wp (a <- alloc ;; if negb (a : bool) then ret None else
         ret (Some (mkHStore (strip_slash url) (blen (strip_slash url) + CHUNK_SUFFIX_MAX_LEN + 1) 0 0 key)))
       (fun r w' => match r with Some hs => new_store_spec E w arg hs | None => True end) (fun b _ => b = BHalt) w').
  { intros url params key w' Ha Hk. apply wp_bind, wp_alloc_allocs. intros [|] w3 _ _; apply wp_ret; [|exact I].
    exists url, params. split; [exact Ha|]. split; [apply strip_slash_spec|]. split; [exact Hk|]. split; [reflexivity|]. split; [reflexivity|].
    split; [split; cbn; [lia|reflexivity]|]. cbn. eapply params_key_ok; [exact Hk|discriminate]. }
  destruct (strrchr arg 35) as [p|].
  - destruct HS as [Ea Hx]. eapply wp_mono; [apply wp_params; [exact HE|lia|]| |auto].
    + intros X. apply Hn. rewrite Ea. apply in_or_app. right. right. exact X.
    + intros [key|] w3 (F3 & K); [|apply wp_ret; exact I].
      apply (Fin _ (skipn (S p) arg)); [right; auto|]. clear -K.
      induction K; [constructor| |];
          match goal with K : key_text _ _ _ _ |- _ => apply (key_text_ext E w) in K; [|cbn; auto] end;
          [eapply pk_last; eauto|eapply pk_more; eauto].
  - apply wp_ret. apply (Fin _ []); [left; auto|constructor].
Qed.
