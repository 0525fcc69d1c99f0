(** The HTTP store (C28-C34). *)
From Verif Require Import Base Lib Utils Sha Encrypt StoreHttp SpecBasic SpecCrypto SpecEnv SpecStore SpecHttp
  PfUtils PfBasic PfIO PfEncrypt PfFrame PfIndex PfLocal.
Ltac Zify.zify_post_hook ::= Z.div_mod_to_equations.
Local Open Scope N_scope.

(** ** Safety of one transfer *)
Definition req_ok (n : nat) (r : req) : Prop :=
  length (rq_out r) = n /\ (rq_written r <= n)%nat /\ blen (rq_dec r) <= rq_cap r /\ rq_cap r < SIZE_MOD.
Definition nobad (b : bad) (w : world) : Prop := False.

Lemma set_alloc_twice a b w : set_alloc a (set_alloc b w) = set_alloc a w. Proof. reflexivity. Qed.
Lemma set_alloc_id w : set_alloc (w_alloc w) w = w. Proof. destruct w; reflexivity. Qed.
(** Only allocations happen. *)
Definition allocs (w w' : world) : Prop := exists al, incl al (w_alloc w) /\ w' = set_alloc al w.
Lemma allocs_refl w : allocs w w.
Proof. exists (w_alloc w). split; [apply incl_refl|symmetry; apply set_alloc_id]. Qed.
Lemma allocs_trans a b c : allocs a b -> allocs b c -> allocs a c.
Proof. intros (x & H1 & ->) (y & H2 & ->). exists y. split; [eapply incl_tran; eauto|reflexivity]. Qed.
Lemma allocs_none w w' : allocs w w' -> w_alloc w = [] -> w' = w.
Proof. intros (al & H & ->) H0. rewrite H0 in H. destruct al as [|x al]; [rewrite <- H0; apply set_alloc_id|destruct (H x); left; reflexivity]. Qed.

Lemma wp_alloc_allocs (Q : bool -> world -> Prop) (R : bad -> world -> Prop) w :
  (forall b w', allocs w w' -> (w_alloc w = [] -> b = true) -> Q b w') -> wp alloc Q R w.
Proof.
  intros H. unfold wp, alloc. destruct (w_alloc w) as [|b r] eqn:E.
  - apply H; [apply allocs_refl|auto].
  - apply H; [|discriminate]. exists r. split; [rewrite E; apply incl_tl, incl_refl|reflexivity].
Qed.

Lemma wp_absorb n r data w : req_ok n r -> blen data < OFF_LIMIT ->
  wp (decode_buffer_absorb r data) (fun x w' => let '(ok, r') := x in allocs w w' /\ req_ok n r' /\ rq_state r' = rq_state r /\
       rq_out r' = rq_out r /\ rq_written r' = rq_written r /\ rq_zhist r' = rq_zhist r) nobad w.
Proof.
  intros (H1 & H2 & H3 & H4) Hd. unfold decode_buffer_absorb, SIZE_MOD, OFF_LIMIT in *.
  set (grow := _ <? blen data). set (ns := _ mod _).
  destruct (grow && (ns <? rq_cap r)) eqn:EO.
  { apply wp_ret. split; [apply allocs_refl|]. repeat split; auto. }
  apply wp_bind. apply wp_mono with (Q := fun (_ : bool) w' => allocs w w') (R := nobad); [| |intros ? ? []].
  { destruct grow; [|apply wp_ret, allocs_refl]. apply wp_alloc_allocs. auto. }
  intros a w' Ha. destruct (negb a); [apply wp_ret; repeat split; auto|].
  assert (Hcap : blen (rq_dec r) + blen data <= (if grow then ns else rq_cap r) /\ (if grow then ns else rq_cap r) < 18446744073709551616).
  { subst grow ns. destruct (N.ltb_spec (rq_cap r - blen (rq_dec r)) (blen data)) as [G|G]; cbn [andb] in EO; [|lia].
    apply N.ltb_ge in EO. lia. }
  replace (_ <? _ + _) with false by lia.
  destruct (rq_cipher r) as [c|].
  - pose proof (length_encrypt_do c data) as L. destruct (encrypt_do c data) as [d c']. cbn [fst] in L. apply wp_ret. split; [exact Ha|].
    unfold req_ok, SIZE_MOD. cbn. rewrite blen_app. unfold blen in *. repeat split; auto; lia.
  - apply wp_ret. split; [exact Ha|]. unfold req_ok, SIZE_MOD. cbn. rewrite blen_app. repeat split; auto; lia.
Qed.

Lemma wp_handle_data E n r data w : zstd_ok E -> req_ok n r -> rq_state r <> FAILED ->
  wp (handle_data E r data) (fun x w' => w' = w /\ req_ok n (snd x) /\ rq_dec (snd x) = rq_dec r /\ rq_state (snd x) <> FAILED /\
        match fst x with Some c => (c <= length data)%nat | None => True end) nobad w.
Proof.
  intros Hz Hr Hs. unfold handle_data.
  assert (G : forall st, st <> FAILED -> forall hist dc dp, e_zstep E hist data (length (rq_out r) - rq_written r) = Some (dc, dp) ->
     let r' := mkReq STREAMING (overlay_at (rq_written r) dp (rq_out r)) (rq_written r + length dp) (rq_dec r) (rq_cap r)
                 ((data, (length (rq_out r) - rq_written r)%nat) :: rq_zhist r) (rq_cipher r) in
     req_ok n r' /\ (dc <= length data)%nat).
  { intros st Hst hist dc dp H. apply Hz in H. destruct Hr as (H1 & H2 & H3 & H4). cbn. split; [|lia].
    unfold req_ok. cbn. rewrite length_overlay_at by lia. repeat split; auto; lia. }
  destruct (rq_state r) eqn:ES; [| |congruence].
  - destruct (blen data <? 4); [apply wp_ret; cbn; rewrite ES; repeat (split; [solve [auto; congruence]|]); lia|].
    destruct (negb _); [apply wp_ret; cbn; rewrite ES; repeat (split; [solve [auto; congruence]|]); auto|].
    cbn zeta. destruct (e_zstep E _ data _) as [[dc dp]|] eqn:EZ; apply wp_ret; cbn [fst snd].
    + destruct (G STARTED ltac:(discriminate) _ _ _ EZ) as [G1 G2]. split; [reflexivity|]. split; [exact G1|]. split; [reflexivity|]. split; [discriminate|exact G2].
    + split; [reflexivity|]. split; [exact Hr|]. split; [reflexivity|]. split; [discriminate|exact I].
  - cbn zeta. destruct (e_zstep E _ data _) as [[dc dp]|] eqn:EZ; apply wp_ret; cbn [fst snd].
    + destruct (G STARTED ltac:(discriminate) _ _ _ EZ) as [G1 G2]. split; [reflexivity|]. split; [exact G1|]. split; [reflexivity|]. split; [discriminate|exact G2].
    + split; [reflexivity|]. split; [exact Hr|]. split; [reflexivity|]. split; [congruence|exact I].
Qed.

Lemma wp_data_cb E n code ptr r w : zstd_ok E -> req_ok n r -> blen ptr < OFF_LIMIT ->
  wp (store_http_data_cb E code ptr r) (fun x w' => allocs w w' /\ req_ok n (snd x) /\
        ((fst x = blen ptr /\ rq_state (snd x) <> FAILED) \/ (fst x = 0 /\ rq_state (snd x) = FAILED))) nobad w.
Proof.
  intros Hz Hr Hp. unfold store_http_data_cb.
  set (bd := match rq_state r with STARTED => _ | _ => _ end). destruct bd.
  { apply wp_ret. cbn. split; [apply allocs_refl|]. split; [exact Hr|]. right. auto. }
  destruct (rq_state r) eqn:ES.
  3: { apply wp_ret. cbn. split; [apply allocs_refl|]. split; [exact Hr|]. right. auto. }
  1,2: destruct (negb _ || _).
  1,3: apply wp_bind; eapply wp_mono; [apply (wp_absorb n); assumption| |intros ? ? []];
       intros [ok r1] w1 (Ha & Hr1 & S1 & _); destruct (negb ok);
       [apply wp_ret; split; [exact Ha|]; split; [exact Hr1|]; right; auto|];
       apply wp_bind; eapply wp_mono; [apply (wp_handle_data E n); [exact Hz|exact Hr1|congruence]| |intros ? ? []];
       intros [[c|] r2] w2 (-> & Hr2 & Hd & Hs2 & Hc); cbn [fst snd] in *;
       [apply wp_ret; cbn; split; [exact Ha|]; split; [|left; auto];
        destruct Hr2 as (G1 & G2 & G3 & G4); unfold req_ok; cbn; repeat split; auto;
        unfold blen in *; rewrite skipn_length; lia
       |apply wp_ret; cbn; split; [exact Ha|]; split; [exact Hr2|right; auto]].
  1,2: apply wp_bind; eapply wp_mono; [apply (wp_handle_data E n); [exact Hz|exact Hr|congruence]| |intros ? ? []];
       intros [[c|] r2] w2 (-> & Hr2 & Hd & Hs2 & Hc); cbn [fst snd] in *;
       [|apply wp_ret; cbn; split; [apply allocs_refl|]; split; [exact Hr2|right; auto]];
       destruct (Nat.ltb c (length ptr));
       [|apply wp_ret; cbn; split; [apply allocs_refl|]; split; [exact Hr2|left; auto]];
       apply wp_bind; eapply wp_mono; [apply (wp_absorb n); [exact Hr2|unfold blen in *; rewrite skipn_length; lia]| |intros ? ? []];
       intros [ok r1] w1 (Ha & Hr1 & S1 & _); destruct (negb ok); apply wp_ret; cbn; (split; [exact Ha|]); (split; [exact Hr1|]);
       [right; auto|left; split; congruence].
Qed.

Lemma wp_deliver E n code fin : zstd_ok E -> forall segs r w, req_ok n r -> Forall (fun s => blen s < OFF_LIMIT) segs ->
  wp (curl_deliver E code segs fin r) (fun x w' => allocs w w' /\ req_ok n (snd x) /\
        (fst x = fin \/ (fst x = CURLE_WRITE_ERROR /\ rq_state (snd x) = FAILED))) nobad w.
Proof.
  intros Hz. induction segs as [|s segs IH]; intros r w Hr Hs; cbn [curl_deliver].
  { apply wp_ret. split; [apply allocs_refl|]. split; [exact Hr|left; reflexivity]. }
  inversion_clear Hs as [|? ? H1 H2]. apply wp_bind. eapply wp_mono; [apply (wp_data_cb E n); assumption| |intros ? ? []].
  intros [k r1] w1 (Ha & Hr1 & Hk). cbn [fst snd] in *.
  destruct (k =? blen s) eqn:EK.
  - eapply wp_mono; [apply IH; assumption| |intros ? ? []]. intros x w2 (Hb & Hx). split; [eapply allocs_trans; eauto|exact Hx].
  - apply wp_ret. cbn. split; [exact Ha|]. split; [exact Hr1|]. right. split; [reflexivity|]. destruct Hk as [[Hk _]|[_ Hk]]; [lia|exact Hk].
Qed.

(** ** One request: transfers and pauses *)
Definition after_perform (url : bytes) (w : world) : world := add_trace (TPerform url) (set_nperf (S (w_nperf w)) w).

Lemma wp_perform E n url r w : zstd_ok E -> server_ok E -> req_ok n r ->
  wp (curl_easy_perform E url r) (fun x w' => allocs (after_perform url w) w' /\ req_ok n (snd x) /\
        snd (fst x) = p_code (e_server E url (w_nperf w)) /\
        (fst (fst x) = p_end (e_server E url (w_nperf w)) \/
         (fst (fst x) = CURLE_WRITE_ERROR /\ rq_state (snd x) = FAILED))) nobad w.
Proof.
  intros Hz Hsv Hr. unfold curl_easy_perform.
  change (wp (('(c, r0) <- curl_deliver E (p_code (e_server E url (w_nperf w))) (p_segs (e_server E url (w_nperf w)))
            (p_end (e_server E url (w_nperf w))) r;; ret (c, p_code (e_server E url (w_nperf w)), r0))) 
     (fun x w' => allocs (after_perform url w) w' /\ req_ok n (snd x) /\
        snd (fst x) = p_code (e_server E url (w_nperf w)) /\
        (fst (fst x) = p_end (e_server E url (w_nperf w)) \/
         (fst (fst x) = CURLE_WRITE_ERROR /\ rq_state (snd x) = FAILED))) nobad (after_perform url w)).
  apply wp_bind. eapply wp_mono; [apply (wp_deliver E n); [exact Hz|exact Hr|]| |intros ? ? []].
  - apply Forall_forall. intros s Hs. eapply Hsv, Hs.
  - intros [c r1] w1 (Ha & Hr1 & Hc). apply wp_ret. cbn [fst snd] in *. auto.
Qed.

Lemma is_transient c : curl_is_transient_error c = true <-> transient c.
Proof. unfold transient. destruct c; cbn; intuition discriminate. Qed.
Lemma is_transient_false c : curl_is_transient_error c = false <-> ~ transient c.
Proof. rewrite <- is_transient. destruct (curl_is_transient_error c); intuition congruence. Qed.
Lemma transient_dec c : {transient c} + {~ transient c}.
Proof. destruct (curl_is_transient_error c) eqn:E; [left; now apply is_transient|right; now apply is_transient_false]. Qed.

(** [i] transfers that failed transiently, each followed by its pause. *)
Inductive attempts (E : env) (url : bytes) : nat -> req -> world -> req -> world -> Prop :=
| att_0 r w : attempts E url 0 r w r w
| att_S i r w r1 w1 c code r2 w2 : attempts E url i r w r1 w1 ->
    curl_easy_perform E url r1 w1 = (Ok (c, code, r2), w2) -> transient c ->
    attempts E url (S i) r w r2 (add_trace (TSleep (backoff i)) w2).

Lemma backoff_next i : N.min ((2 * backoff i) mod M32) 10000000 = backoff (S i).
Proof.
  unfold backoff, M32. rewrite Nat2N.inj_succ, N.pow_succ_r'. set (x := 200000 * 2 ^ N.of_nat i).
  replace (200000 * (2 * 2 ^ N.of_nat i)) with (2 * x) by (unfold x; lia).
  rewrite N.mod_small by lia. lia.
Qed.

Lemma retried_fwd E url : forall rem i r0 w0 r w c code r' w',
  attempts E url i r0 w0 r w -> retried_curl_easy_perform E url rem (backoff i) r w = (Ok (c, code, r'), w') ->
  (exists j r1 w1, (i <= j < i + rem)%nat /\ attempts E url j r0 w0 r1 w1 /\
     curl_easy_perform E url r1 w1 = (Ok (c, code, r'), w') /\ ~ transient c) \/
  (exists j r1 w1 w2, S j = (i + rem)%nat /\ attempts E url j r0 w0 r1 w1 /\
     curl_easy_perform E url r1 w1 = (Ok (c, code, r'), w2) /\ transient c /\ w' = add_trace (TSleep (backoff j)) w2).
Proof.
  induction rem as [|rem IH]; intros i r0 w0 r w c code r' w' Ha H; cbn [retried_curl_easy_perform] in H; [discriminate|].
  apply bind_ok in H as ([[c1 code1] r1] & w1 & H1 & H).
  destruct (negb (curl_is_transient_error c1)) eqn:ET.
  - injection H as -> -> -> ->. left. exists i, r, w. split; [lia|]. split; [exact Ha|]. split; [exact H1|].
    apply is_transient_false. now destruct (curl_is_transient_error c).
  - assert (Ht : transient c1) by (apply is_transient; now destruct (curl_is_transient_error c1)).
    apply bind_ok in H as (u & w2 & H2 & H). injection H2 as <- <-. cbv zeta in H. rewrite backoff_next in H.
    pose proof (att_S _ _ _ _ _ _ _ _ _ _ _ Ha H1 Ht) as Ha'.
    destruct rem as [|rem].
    + injection H as -> -> -> <-. right. exists i, r, w, w1. split; [lia|]. auto.
    + apply (IH _ _ _ _ _ _ _ _ _ Ha') in H as [(j & rj & wj & Hj & H)|(j & rj & wj & w3 & Hj & H)].
      * left. exists j, rj, wj. split; [lia|exact H].
      * right. exists j, rj, wj, w3. split; [lia|exact H].
Qed.

(** The world after [k] transfers and the pauses of [timeline]. *)
Definition after_attempts (E : env) (url : bytes) (k : nat) (slept : bool) (w w' : world) : Prop :=
  exists al, incl al (w_alloc w) /\
    w' = mkWorld (w_files w) (w_io w) al (w_kcapi w) (w_kev w) (w_nperf w + k)
           (rev (timeline url k slept) ++ w_trace w) /\
    (forall i, (S i < k)%nat -> transient (p_end (e_server E url (w_nperf w + i)))).

Lemma wp_retried E n url : zstd_ok E -> server_ok E -> forall rem i r w, (0 < rem)%nat -> (i + rem = CONNECT_TRIES)%nat -> req_ok n r ->
  wp (retried_curl_easy_perform E url rem (backoff i) r) (fun x w' => req_ok n (snd x) /\
     exists k slept, (1 <= k <= rem)%nat /\
       (exists al, incl al (w_alloc w) /\ w' = mkWorld (w_files w) (w_io w) al (w_kcapi w) (w_kev w) (w_nperf w + k)
           (rev (flat_map (fun j => [TPerform url; TSleep (backoff (i + j))]) (seq 0 (k - 1)) ++ [TPerform url] ++
                 (if slept : bool then [TSleep (backoff (i + (k - 1)))] else [])) ++ w_trace w)) /\
       (forall j, (S j < k)%nat -> transient (p_end (e_server E url (w_nperf w + j)))) /\
       (let p := e_server E url (w_nperf w + (k - 1)) in snd (fst x) = p_code p /\
          (fst (fst x) = p_end p \/ (fst (fst x) = CURLE_WRITE_ERROR /\ rq_state (snd x) = FAILED))) /\
       (if slept then transient (fst (fst x)) /\ k = rem else ~ transient (fst (fst x)))) nobad w.
Proof.
  intros Hz Hsv. induction rem as [|rem IH]; intros i r w Hr0 Hi Hr; [lia|]. cbn [retried_curl_easy_perform].
  apply wp_bind. eapply wp_mono; [apply (wp_perform E n); assumption| |intros ? ? []].
  intros [[c code] r1] w1 ((al & Hal & ->) & Hr1 & Hcode & Hc). cbn [fst snd] in *.
  destruct (negb (curl_is_transient_error c)) eqn:ET.
  - apply wp_ret. cbn [fst snd]. split; [exact Hr1|]. exists 1%nat, false. split; [lia|]. split.
    { exists al. split; [exact Hal|]. cbn. unfold set_alloc. cbn. f_equal. lia. }
    split; [intros; lia|]. cbn zeta. change (1 - 1)%nat with 0%nat. rewrite Nat.add_0_r. split; [auto|].
    apply is_transient_false. now destruct (curl_is_transient_error c).
  - assert (Ht : transient c) by (apply is_transient; now destruct (curl_is_transient_error c)).
    apply wp_bind, wp_trace. cbv zeta. rewrite backoff_next.
    assert (Hend : p_end (e_server E url (w_nperf w)) = c).
    { destruct Hc as [Hc|[Hc _]]; [auto|]. subst c. destruct Ht as [?|[?|?]]; discriminate. }
    destruct rem as [|rem].
    + apply wp_ret. cbn [fst snd]. split; [exact Hr1|]. exists 1%nat, true. split; [lia|]. split.
      { exists al. split; [exact Hal|]. cbn. unfold set_alloc, add_trace. cbn. rewrite Nat.add_0_r. f_equal. lia. }
      split; [intros; lia|]. cbn zeta. change (1 - 1)%nat with 0%nat. rewrite Nat.add_0_r. split; [auto|]. split; [exact Ht|reflexivity].
    + eapply wp_mono; [apply (IH (S i)); [lia|lia|exact Hr1]| |intros ? ? []].
      intros x w2 (Hr2 & k & sl & Hk & (al2 & Hal2 & ->) & Htr & Hlast & Hsl). split; [exact Hr2|].
      exists (S k), sl. split; [lia|]. split; [|split; [|split]].
      * exists al2. split; [eapply incl_tran; eauto|].
        cbn [w_files w_io w_alloc w_kcapi w_kev w_nperf w_trace set_alloc add_trace after_perform set_nperf] in *.
        replace (S k - 1)%nat with (S (k - 1)) by lia. cbn [seq flat_map].
        rewrite <- seq_shift. rewrite (flat_map_concat_map _ (map S _)), map_map, <- flat_map_concat_map.
        rewrite (flat_map_concat_map (fun j => [TPerform url; TSleep (backoff (S i + j))])).
        rewrite (map_ext (fun j => [TPerform url; TSleep (backoff (S i + j))]) (fun j => [TPerform url; TSleep (backoff (i + S j))])) by (intros j; replace (S i + j)%nat with (i + S j)%nat by lia; reflexivity).
        rewrite <- flat_map_concat_map. rewrite Nat.add_0_r.
        replace (S i + (k - 1))%nat with (i + S (k - 1))%nat by lia.
        f_equal; [lia|]. rewrite <- app_assoc, (rev_app_distr [_; _]). rewrite <- app_assoc. reflexivity.
      * intros j Hj. cbn [w_nperf set_alloc add_trace after_perform set_nperf] in *.
        destruct j as [|j]; [rewrite Nat.add_0_r, Hend; exact Ht|].
        specialize (Htr j ltac:(lia)). replace (w_nperf w + S j)%nat with (S (w_nperf w) + j)%nat by lia. exact Htr.
      * cbn [w_nperf set_alloc add_trace after_perform set_nperf] in *.
        replace (w_nperf w + (S k - 1))%nat with (S (w_nperf w) + (k - 1))%nat by lia. exact Hlast.
      * destruct sl; [|exact Hsl]. destruct Hsl as [H1 H2]. split; [exact H1|lia].
Qed.

(** ** One request *)
Lemma wp_eq A (m : M A) (Q : A -> world -> Prop) (R : bad -> world -> Prop) w : wp m Q R w ->
  wp m (fun a w' => m w = (Ok a, w') /\ Q a w') R w.
Proof. unfold wp. destruct (m w) as [[a| | |] w']; auto. Qed.

Definition is_enc (hs : hstore) : bool := match hs_key hs with Some _ => true | None => false end.
Definition http_ok (hs : hstore) : Prop :=
  blen (hs_base hs) + CHUNK_SUFFIX_MAX_LEN + 1 <= hs_url_cap hs /\ hs_dec_cap hs < SIZE_MOD.
Definition same_store (hs hs' : hstore) : Prop :=
  hs_base hs' = hs_base hs /\ hs_url_cap hs' = hs_url_cap hs /\ hs_key hs' = hs_key hs.
Definition fresh_req (hs : hstore) (id out : bytes) : req :=
  mkReq STARTED out 0 [] (hs_dec_cap hs) [] (match hs_key hs with Some k => Some (encrypt_restart k id) | None => None end).

Lemma format_length id : length (chunk_format_id id) = (2 * length id)%nat.
Proof. unfold chunk_format_id. induction id as [|x id IH]; cbn [flat_map length]; [reflexivity|]. rewrite app_length, IH. unfold hex_byte. cbn. lia. Qed.
Lemma chunk_url_length hs id : length id = 32%nat -> blen (chunk_url hs id) <= blen (hs_base hs) + CHUNK_SUFFIX_MAX_LEN.
Proof.
  intros H. unfold chunk_url. rewrite !blen_app.
  replace (blen (chunk_format_id id)) with 64 by (unfold blen; rewrite format_length, H; reflexivity).
  change CHUNK_SUFFIX_MAX_LEN with 80. change (blen (bs "/")) with 1. change (blen (bs ".cacnk")) with 6.
  change (blen (hex_byte (nth 0 id 0))) with 2. change (blen (hex_byte (nth 1 id 0))) with 2.
  destruct (hs_key hs); [change (blen (bs ".enc")) with 4|change (blen []) with 0]; lia.
Qed.
Lemma chunk_url_layout hs id : length id = 32%nat -> bytes_ok id -> casync_url (hs_base hs) id (chunk_url hs id) (is_enc hs).
Proof.
  intros L H. exists (chunk_format_id id). split; [now apply format_denotes|]. split; [now apply format_lower|].
  unfold chunk_url, is_enc. destruct id as [|a [|b id]]; try (cbn in L; lia).
  cbn [nth]. unfold chunk_format_id. cbn [flat_map]. f_equal. f_equal.
  unfold hex_byte. cbn [app firstn]. destruct (hs_key hs); reflexivity.
Qed.

(** The last transfer of the request ended with [c] and status [code], leaving the decoder in [st]. *)
Definition transferred (E : env) (hs : hstore) (id out : bytes) (w : world) (c : curlcode) (code : option N) (st : hstate) : Prop :=
  exists w1 r w2, allocs w w1 /\
    retried_curl_easy_perform E (chunk_url hs id) CONNECT_TRIES 200000 (fresh_req hs id out) w1 = (Ok (c, code, r), w2) /\ rq_state r = st.
(** The verdict on a request *)
Definition judgement (E : env) (hs : hstore) (id out : bytes) (w : world) (v : verdict) : Prop :=
  exists c code st, transferred E hs id out w c code st /\ judged c code st v.

(** What a request does, apart from the data: transfers and pauses; new counter; answer. *)
Definition request_spec (E : env) (hs : hstore) (id out : bytes) (w : world) (r : option N) (hs' : hstore) (w' : world) : Prop :=
  exists k slept v, (1 <= k <= 10)%nat /\ (slept = true -> k = 10%nat) /\
    w_trace w' = rev (timeline (chunk_url hs id) k slept) ++ w_trace w /\ w_nperf w' = (w_nperf w + k)%nat /\
    (forall i, (S i < k)%nat -> transient (p_end (e_server E (chunk_url hs id) (w_nperf w + i)))) /\
    judgement E hs id out w v /\
    (exists c st, judged c (p_code (e_server E (chunk_url hs id) (w_nperf w + (k - 1)))) st v /\
       (c = p_end (e_server E (chunk_url hs id) (w_nperf w + (k - 1))) \/ (c = CURLE_WRITE_ERROR /\ st = FAILED)) /\
       (slept = true <-> transient c)) /\
    hs_err hs' = (match v with VError => (hs_err hs + 1) mod 2 ^ 32 | VDecoded => 0 | _ => hs_err hs end) /\
    (match v with
     | VDead => r = None
     | VError => r = if 10 <? hs_err hs' then None else Some 0
     | VMissing | VUndecodable => r = Some 0
     | VDecoded => exists n, r = Some n
     end).

Lemma wp_http_get E b hs id out w : zstd_ok E -> server_ok E -> http_ok hs -> length id = 32%nat -> hash_mode b w ->
  wp (store_http_get_chunk E hs id out) (fun x w' => let '(r, out', hs') := x in
        authentic E b (id, out) (r, out') /\ http_ok hs' /\ same_store hs hs' /\ 
        ((r = None /\ hs' = hs /\ out' = out /\ allocs w w' /\ w_alloc w <> []) \/ request_spec E hs id out w r hs' w'))
     (fun bd w' => bd = BHalt /\ w_kcapi w' = true) w.
Proof.
  intros Hz Hsv (Hu & Hcap) Lid Hm. unfold store_http_get_chunk, set_url.
  pose proof (chunk_url_length hs id Lid) as Lu. apply wp_bind.
  replace (hs_url_cap hs <? blen (chunk_url hs id) + 1) with false by lia.
  apply wp_bind, wp_alloc_allocs. intros a w1 A1 Ha. apply wp_ret. destruct a.
  2:{ apply wp_ret. split; [split; cbn; auto|]. split; [split; assumption|]. split; [repeat split|]. left. repeat split; auto. intros C. now specialize (Ha C). }
  apply wp_bind. apply wp_mono with (Q := fun a w' => allocs w w' /\ (w_alloc w = [] -> a = true)) (R := nobad); [| |intros ? ? []].
  { destruct (hs_key hs); [|apply wp_ret; auto]. apply wp_alloc_allocs. intros a w2 A2 Ha2. split; [eapply allocs_trans; eauto|].
    intros C. apply Ha2. destruct A1 as (al & I & ->). cbn. rewrite C in I. destruct al as [|x al]; [reflexivity|]. destruct (I x). left; reflexivity. }
  intros a w2 (A2 & Ha2). destruct a; cbn [negb].
  2:{ apply wp_ret. split; [split; cbn; auto|]. split; [split; assumption|]. split; [repeat split|]. left. repeat split; auto. intros C. now specialize (Ha2 C). }
  apply wp_bind.
  fold (fresh_req hs id out).
  eapply wp_mono; [apply wp_eq; apply (wp_retried E (length out) (chunk_url hs id) Hz Hsv CONNECT_TRIES 0 (fresh_req hs id out))| |intros ? ? []].
  { unfold CONNECT_TRIES. lia. } { reflexivity. }
  { unfold req_ok, fresh_req. cbn. unfold blen. cbn. repeat split; auto; lia. }
  intros [[c code] r] w3 (Eq & Hr & k & sl & Hk & (al & Hal & Ew3) & Htr & (Hcode & Hc) & Hsl). cbn [fst snd] in *.
  destruct A2 as (al2 & Hal2 & ->). cbn [w_files w_io w_alloc w_kcapi w_kev w_nperf w_trace set_alloc] in *.
  assert (HT : transferred E hs id out w c code (rq_state r)).
  { exists (set_alloc al2 w), r, w3. split; [exists al2; auto|]. split; [exact Eq|reflexivity]. }
  assert (Hout : length (rq_out r) = length out) by apply Hr.
  assert (Hwr : (rq_written r <= length out)%nat) by apply Hr.
  assert (Hok : forall e, http_ok (hs_after hs r e)) by (intros e; split; [exact Hu|apply Hr]).
  assert (Hss : forall e, same_store hs (hs_after hs r e)) by (intros e; repeat split).
  assert (Hspec : forall v e rr w', judged c code (rq_state r) v -> w_trace w' = w_trace w3 -> w_nperf w' = w_nperf w3 ->
     e = (match v with VError => (hs_err hs + 1) mod 2 ^ 32 | VDecoded => 0 | _ => hs_err hs end) ->
     (match v with
     | VDead => rr = None
     | VError => rr = if 10 <? e then None else Some 0
     | VMissing | VUndecodable => rr = Some 0
     | VDecoded => exists n, rr = Some n
     end) -> request_spec E hs id out w rr (hs_after hs r e) w').
  { intros v e rr w' Hj Ht Hn He Hrr. exists k, sl, v. split; [exact Hk|]. split; [destruct sl; [intros _; apply Hsl|discriminate]|].
    split; [rewrite Ht, Ew3; reflexivity|]. split; [rewrite Hn, Ew3; reflexivity|]. split; [exact Htr|].
    split; [exists c, code, (rq_state r); auto|]. split.
    { exists c, (rq_state r). rewrite <- Hcode. split; [exact Hj|]. split; [exact Hc|]. destruct sl; [split; [intros _; apply Hsl|reflexivity]|].
      split; [discriminate|]. intros C. contradiction. }
    split; [exact He|exact Hrr]. }
  assert (HF : forall rr, rr = None \/ rr = Some 0 -> authentic E b (id, out) (rr, rq_out r)).
  { intros rr [->| ->]; split; cbn; auto. lia. }
  destruct (curl_is_transient_error c) eqn:ET.
  { apply is_transient in ET. unfold increase_error_counter. apply wp_ret. unfold M32, ERROR_MAX.
    split; [apply HF; destruct (10 <? _); auto|]. split; [apply Hok|]. split; [apply Hss|]. right.
    apply Hspec with (v := VError); auto. constructor; exact ET. }
  apply is_transient_false in ET.
  destruct c; try (exfalso; apply ET; unfold transient; tauto).
  3:{ apply wp_ret. split; [apply HF; auto|]. split; [apply Hok|]. split; [apply Hss|]. right.
      apply Hspec with (v := VDead); auto. constructor. }
  1: set (cc := CURLE_OK) in *. 2: set (cc := CURLE_WRITE_ERROR) in *.
  all:
    assert (Hcc : cc = CURLE_OK \/ cc = CURLE_WRITE_ERROR) by (subst cc; tauto); clearbody cc;
    destruct code as [s|]; [|apply wp_ret; split; [apply HF; auto|]; split; [apply Hok|]; split; [apply Hss|]; right;
      apply Hspec with (v := VDead); auto; apply j_nocode; exact Hcc];
    destruct ((s =? 404) || (s =? 410)) eqn:E4;
    [apply wp_ret; split; [apply HF; auto|]; split; [apply Hok|]; split; [apply Hss|]; right;
      apply Hspec with (v := VMissing); auto; apply j_missing; [exact Hcc|lia]|];
    destruct (N.leb_spec 400 s) as [E5|E5];
    [unfold increase_error_counter; apply wp_ret; unfold M32, ERROR_MAX;
     split; [apply HF; destruct (10 <? _); auto|]; split; [apply Hok|]; split; [apply Hss|]; right;
     apply Hspec with (v := VError); auto; apply j_status; auto; lia|];
    destruct (rq_state r) eqn:ES;
    [apply wp_ret; split; [apply HF; auto|]; split; [apply Hok|]; split; [apply Hss|]; right;
      apply Hspec with (v := VUndecodable); auto; apply j_bad; auto; discriminate| |
     apply wp_ret; split; [apply HF; auto|]; split; [apply Hok|]; split; [apply Hss|]; right;
      apply Hspec with (v := VUndecodable); auto; apply j_bad; auto; discriminate];
    apply wp_bind; apply (wp_chunk_id E b);
    [intros Hb; specialize (Hm Hb); rewrite Ew3; exact Hm| |intros kv _; split; reflexivity];
    intros kk kv act Hq Hh _; destruct (beq act id) eqn:EB; cbn [negb]; apply wp_ret;
    [apply beq_eq in EB; subst act; split; [split; cbn [fst snd]; [exact Hout|]; intros _; split; [unfold blen; lia|]; rewrite Nat2N.id; exact Hh|]
    |split; [apply HF; auto|]];
    (split; [apply Hok|]; split; [apply Hss|]; right;
     apply Hspec with (v := VDecoded); auto; [apply j_good; auto|eexists; reflexivity]).
Qed.
