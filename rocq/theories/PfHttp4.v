(** Encryption is transparent (C30). *)
From Verif Require Import Base Lib Utils Sha Encrypt StoreHttp SpecBasic SpecCrypto SpecEnv SpecStore SpecHttp
  PfUtils PfBasic PfIO PfEncrypt PfFrame PfIndex PfLocal PfHttp PfHttp3.
Ltac Zify.zify_post_hook ::= Z.div_mod_to_equations.
Local Open Scope N_scope.

Lemma concat_lengths_inj : forall a b : list bytes, concat a = concat b -> map (@length N) a = map (@length N) b -> a = b.
Proof.
  induction a as [|x a IH]; intros [|y b] H1 H2; try discriminate; [reflexivity|]. cbn in *. injection H2 as L H2.
  assert (x = y) as ->. { apply (f_equal (firstn (length x))) in H1. rewrite firstn_exact, L, firstn_exact in H1. exact H1. }
  apply app_inv_head in H1. f_equal. auto.
Qed.

Lemma restart_nonce key id : (24 <= length id)%nat -> encrypt_restart key id = encrypt_restart key (firstn 24 id).
Proof.
  intros H. unfold encrypt_restart. rewrite firstn_firstn. change (Nat.min 16 24) with 16%nat.
  replace (firstn 8 (skipn 16 (firstn 24 id))) with (firstn 8 (skipn 16 id)); [reflexivity|].
  change 24%nat with (16 + 8)%nat. rewrite (firstn_skipn_add 16 8 id).
  rewrite skipn_app_ge by (rewrite firstn_length; lia). rewrite firstn_length.
  replace (16 - Nat.min 16 (length id))%nat with 0%nat by lia. cbn [skipn]. rewrite firstn_firstn. reflexivity.
Qed.

Lemma wire_plain key id body : bytes_ok key -> length key = 32%nat -> bytes_ok id -> length id = 32%nat -> blen body <= 2 ^ 38 ->
  fst (encrypt_do (encrypt_restart key id) (xchacha key (firstn 24 id) body)) = body.
Proof.
  intros Hk Lk Hi Li L. rewrite restart_nonce by lia.
  destruct (encrypt_restart_for key (firstn 24 id)) as [F P].
  destruct (encrypt_do_spec key (firstn 24 id) (encrypt_restart key (firstn 24 id)) body Hk Lk) as [E1 _].
  { now apply bytes_ok_firstn. } { rewrite firstn_length. lia. } { exact F. } { rewrite P. exact L. }
  rewrite P in E1. rewrite <- xchacha_from_0. 
  replace (xchacha_from key (firstn 24 id) 0 body) with (fst (encrypt_do (encrypt_restart key (firstn 24 id)) body)) by (rewrite E1; reflexivity).
  apply encrypt_do_invol.
Qed.

Lemma snd_encrypt_do_len c a b : length a = length b -> snd (encrypt_do c a) = snd (encrypt_do c b).
Proof. intros H. unfold encrypt_do. cbn [snd]. now rewrite H. Qed.

Lemma bind_eq {A B} (m : M A) (f : A -> M B) w a w' : m w = (Ok a, w') -> bind m f w = f a w'.
Proof. intros H. unfold bind. now rewrite H. Qed.

Ltac parts := repeat match goal with |- _ /\ _ => split end; auto; try lia; try congruence.

Section Sim.
Variables (E1 E2 : env) (B : N).
Hypothesis HEz : e_zstep E2 = e_zstep E1.
Hypothesis Hz : zstd_ok E1.
Hypothesis HB3 : 3 * B < SIZE_MOD.

(** [rest]: number of bytes still to come *)
Definition sim (rest : N) (c : cipher) (r1 r2 : req) : Prop :=
  rq_state r2 = rq_state r1 /\ rq_out r2 = rq_out r1 /\ rq_written r2 = rq_written r1 /\ rq_zhist r2 = rq_zhist r1 /\
  rq_cap r1 <= 2 * B /\ rq_cap r2 <= 2 * B /\
  (rq_state r1 <> FAILED -> rq_dec r2 = rq_dec r1 /\ rq_cipher r1 = None /\ rq_cipher r2 = Some c /\
     blen (rq_dec r1) <= rq_cap r1 /\ blen (rq_dec r1) <= rq_cap r2 /\ blen (rq_dec r1) + rest <= B).

Lemma handle_sim r1 r2 data w : rq_state r2 = rq_state r1 -> rq_out r2 = rq_out r1 -> rq_written r2 = rq_written r1 -> rq_zhist r2 = rq_zhist r1 ->
  rq_state r1 <> FAILED ->
  exists n q1 q2, handle_data E1 r1 data w = (Ok (n, q1), w) /\ handle_data E2 r2 data w = (Ok (n, q2), w) /\
    (match n with Some n => (n <= length data)%nat | None => True end) /\
    rq_state q2 = rq_state q1 /\ rq_out q2 = rq_out q1 /\ rq_written q2 = rq_written q1 /\ rq_zhist q2 = rq_zhist q1 /\ rq_state q1 <> FAILED /\
    rq_dec q1 = rq_dec r1 /\ rq_dec q2 = rq_dec r2 /\ rq_cap q1 = rq_cap r1 /\ rq_cap q2 = rq_cap r2 /\ rq_cipher q1 = rq_cipher r1 /\ rq_cipher q2 = rq_cipher r2.
Proof.
  intros H1 H2 H3 H4 Hf. unfold handle_data. rewrite H1, H2, H3, H4, HEz.
  destruct (rq_state r1) eqn:ES; [| |congruence].
  - destruct (blen data <? 4); [exists (Some 0%nat), r1, r2; rewrite ES, H1; parts|].
    destruct (negb _); [exists None, r1, r2; rewrite ES, H1; parts|]. cbv zeta.
    destruct (e_zstep E1 _ data _) as [[a b]|] eqn:EZ.
    + apply Hz in EZ. eexists (Some a), _, _. split; [reflexivity|]. split; [reflexivity|]. cbn. parts.
    + eexists None, _, _. split; [reflexivity|]. split; [reflexivity|]. cbn. parts.
  - cbv zeta. destruct (e_zstep E1 _ data _) as [[a b]|] eqn:EZ.
    + apply Hz in EZ. eexists (Some a), _, _. split; [reflexivity|]. split; [reflexivity|]. cbn. parts.
    + eexists None, r1, r2. split; [reflexivity|]. split; [reflexivity|]. cbn. rewrite ES, H1. parts.
Qed.

Lemma cb_sim rest c r1 r2 s w : w_alloc w = [] -> sim (blen s + rest) c r1 r2 ->
  exists n q1 q2, store_http_data_cb E1 (Some 200) s r1 w = (Ok (n, q1), w) /\
    store_http_data_cb E2 (Some 200) (fst (encrypt_do c s)) r2 w = (Ok (n, q2), w) /\ sim rest (snd (encrypt_do c s)) q1 q2.
Proof.
  intros Ha (S1 & S2 & S3 & S4 & C1 & C2 & S5). set (s' := fst (encrypt_do c s)). unfold store_http_data_cb. rewrite S1.
  assert (Ls : length s' = length s) by apply length_encrypt_do.
  assert (Inv' : fst (encrypt_do c s') = s) by apply encrypt_do_invol.
  assert (Cs : snd (encrypt_do c s') = snd (encrypt_do c s)) by (now apply snd_encrypt_do_len). clearbody s'.
  assert (FAIL : forall q1 q2, rq_out q2 = rq_out q1 -> rq_written q2 = rq_written q1 -> rq_zhist q2 = rq_zhist q1 -> rq_cap q1 <= 2 * B -> rq_cap q2 <= 2 * B ->
    sim rest (snd (encrypt_do c s)) (rq_set_state FAILED q1) (rq_set_state FAILED q2)).
  { intros q1 q2 H1 H2 H3 H4 H5. unfold sim. cbn. repeat (split; [solve [auto]|]). intros X; congruence. }
  assert (Blen : blen s' = blen s) by (unfold blen; now rewrite Ls). rewrite Blen.
  assert (Est : forall st, (match st with STARTED => negb (200 =? 200) | _ => false end) = false) by (intros [| |]; reflexivity).
  rewrite Est.
  assert (Hcase : rq_state r1 = FAILED \/ rq_state r1 <> FAILED) by (destruct (rq_state r1); [right|right|left]; congruence).
  destruct Hcase as [EF|EF].
  { rewrite EF. exists 0. eexists. eexists. split; [reflexivity|]. split; [reflexivity|]. unfold sim. rewrite EF, S1. repeat (split; [solve [auto]|]). intros X; congruence. }
  assert (Hst : forall A (X Y : A), match rq_state r1 with FAILED => X | _ => Y end = Y) by (intros; destruct (rq_state r1); congruence).
  rewrite !Hst. destruct (S5 EF) as (D & Ci1 & Ci2 & L1 & L2 & L3). rewrite Ci1, Ci2, orb_true_r, orb_false_r.
  (* the encrypting store *)
  destruct (absorb_exact [] [] [] B ltac:(cbn; lia) ltac:(unfold blen; cbn; lia) HB3 r2 s' w Ha) as (cap2 & EA2 & K1 & K2); [rewrite D; exact L2|exact C2|rewrite D, Blen; lia|].
  rewrite Ci2, Inv', Cs in EA2. set (r2' := mkReq _ _ _ (rq_dec r2 ++ s) cap2 _ _) in EA2.
  rewrite (bind_eq _ _ _ _ _ EA2). cbn [negb].
  destruct (negb (blen (rq_dec r1) =? 0)) eqn:EC.
  - destruct (absorb_exact [] [] [] B ltac:(cbn; lia) ltac:(unfold blen; cbn; lia) HB3 r1 s w Ha) as (cap1 & EA1 & K3 & K4); [exact L1|exact C1|lia|].
    rewrite Ci1 in EA1. set (r1' := mkReq _ _ _ (rq_dec r1 ++ s) cap1 _ _) in EA1.
    rewrite (bind_eq _ _ _ _ _ EA1). cbn [negb].
    destruct (handle_sim r1' r2' (rq_dec r1 ++ s) w) as (n & q1 & q2 & H1 & H2 & Hn & T1 & T2 & T3 & T4 & T5 & T6 & T7 & T8 & T9 & T10 & T11); auto.
    change (rq_dec r1') with (rq_dec r1 ++ s). change (rq_dec r2') with (rq_dec r2 ++ s). rewrite D. rewrite (bind_eq _ _ _ _ _ H1), (bind_eq _ _ _ _ _ H2).
    destruct n as [n|].
    + eexists. eexists. eexists. split; [reflexivity|]. split; [reflexivity|].
      unfold sim. cbn [rq_set_dec rq_state rq_out rq_written rq_zhist rq_cap rq_dec rq_cipher]. rewrite T8, T9.
      repeat (split; [solve [auto]|]). intros _. rewrite T6, T7, T10, T11. cbn [r1' r2' rq_dec rq_cap rq_cipher]. rewrite D.
      split; [reflexivity|]. split; [reflexivity|]. split; [reflexivity|].
      unfold blen in *. rewrite skipn_length. rewrite app_length in *. rewrite D in K1. lia.
    + exists 0. eexists. eexists. split; [reflexivity|]. split; [reflexivity|]. apply FAIL; auto; [rewrite T8; exact K4|rewrite T9; exact K2].
  - assert (D0 : rq_dec r1 = []). { destruct (rq_dec r1); [reflexivity|]. unfold blen in EC. cbn in EC. discriminate. }
    destruct (handle_sim r1 r2' s w) as (n & q1 & q2 & H1 & H2 & Hn & T1 & T2 & T3 & T4 & T5 & T6 & T7 & T8 & T9 & T10 & T11); auto.
    change (rq_dec r2') with (rq_dec r2 ++ s). rewrite D, D0. cbn [app]. rewrite (bind_eq _ _ _ _ _ H1), (bind_eq _ _ _ _ _ H2).
    destruct n as [n|].
    + destruct (Nat.ltb_spec n (length s)) as [G|G].
      * destruct (absorb_exact [] [] [] B ltac:(cbn; lia) ltac:(unfold blen; cbn; lia) HB3 q1 (skipn n s) w Ha) as (cap1 & EA1 & K3 & K4).
        { rewrite T6, T8, D0. unfold blen; cbn; lia. } { rewrite T8. exact C1. } { rewrite T6, D0. unfold blen in *. rewrite skipn_length. cbn. lia. }
        rewrite (bind_eq _ _ _ _ _ EA1). cbn [negb]. eexists. eexists. eexists. split; [reflexivity|]. split; [reflexivity|].
        unfold sim. cbn [rq_set_dec rq_state rq_out rq_written rq_zhist rq_cap rq_dec rq_cipher]. rewrite T9.
        repeat (split; [solve [auto]|]). intros _. rewrite T6, T7, T10, T11, Ci1, D0. cbn [r2' rq_dec rq_cap rq_cipher app]. rewrite D, D0. cbn [app].
        split; [reflexivity|]. split; [reflexivity|]. split; [reflexivity|].
        rewrite T6, D0 in K3. rewrite D, D0 in K1. rewrite D0 in L3. unfold blen in *. rewrite skipn_length in *. cbn [length] in *. lia.
      * eexists. eexists. eexists. split; [reflexivity|]. split; [reflexivity|].
        unfold sim. cbn [rq_set_dec rq_state rq_out rq_written rq_zhist rq_cap rq_dec rq_cipher]. rewrite T8, T9.
        repeat (split; [solve [auto]|]). intros _. rewrite T6, T7, T10, T11, Ci1, D0. cbn [r2' rq_dec rq_cap rq_cipher app]. rewrite D, D0. cbn [app].
        rewrite skipn_all2 by lia. split; [reflexivity|]. split; [reflexivity|]. split; [reflexivity|].
        rewrite D0 in L3. unfold blen in *. cbn [length] in *. lia.
    + exists 0. eexists. eexists. split; [reflexivity|]. split; [reflexivity|]. apply FAIL; auto; [rewrite T8; exact C1|rewrite T9; exact K2].
Qed.

Lemma deliver_sim fin : forall segs c r1 r2 w, w_alloc w = [] -> sim (blen (concat segs)) c r1 r2 ->
  exists cc q1 q2 c', curl_deliver E1 (Some 200) segs fin r1 w = (Ok (cc, q1), w) /\
    curl_deliver E2 (Some 200) (fst (encrypt_calls c segs)) fin r2 w = (Ok (cc, q2), w) /\ exists rest, sim rest c' q1 q2.
Proof.
  induction segs as [|s segs IH]; intros c r1 r2 w Ha Hs; cbn [curl_deliver concat encrypt_calls] in *.
  - exists fin, r1, r2, c. split; [reflexivity|]. split; [reflexivity|]. eauto.
  - rewrite blen_app in Hs. destruct (cb_sim _ _ _ _ _ w Ha Hs) as (n & q1 & q2 & H1 & H2 & H3).
    pose proof (length_encrypt_do c s) as Ls.
    destruct (encrypt_do c s) as [s' c1] eqn:EE. destruct (encrypt_calls c1 segs) as [ss c2] eqn:EC. cbn [fst snd] in *.
    cbn [curl_deliver]. unfold bind. rewrite H1, H2. replace (blen s') with (blen s) by (unfold blen; now rewrite Ls).
    destruct (n =? blen s).
    + destruct (IH c1 q1 q2 w Ha H3) as (cc & p1 & p2 & c' & G1 & G2 & G3). rewrite EC in G2. cbn [fst] in G2. exists cc, p1, p2, c'. auto.
    + exists CURLE_WRITE_ERROR, q1, q2, c1. split; [reflexivity|]. split; [reflexivity|]. eauto.
Qed.

(** With another status both give up at once. *)
Lemma deliver_bad E code fin : code <> Some 200 -> forall segs r w, rq_state r = STARTED \/ rq_state r = FAILED ->
  exists cc, curl_deliver E code segs fin r w = (Ok (cc, match segs with [] => r | _ => rq_set_state FAILED r end), w) /\
    cc = if forallb (fun s => blen s =? 0) segs then fin else CURLE_WRITE_ERROR.
Proof.
  intros Hc. induction segs as [|s segs IH]; intros r w Hr; cbn [curl_deliver forallb]; [eexists; split; reflexivity|].
  assert (Ecb : store_http_data_cb E code s r w = (Ok (0, rq_set_state FAILED r), w)).
  { unfold store_http_data_cb. destruct Hr as [Hr|Hr]; rewrite Hr.
    - replace (negb _) with true; [reflexivity|]. destruct code as [x|]; [|reflexivity]. destruct (N.eqb_spec x 200); [congruence|reflexivity].
    - cbn. unfold rq_set_state. destruct r; cbn in *; subst; reflexivity. }
  unfold bind. rewrite Ecb. rewrite N.eqb_sym. destruct (blen s =? 0); [|eexists; split; reflexivity].
  destruct (IH (rq_set_state FAILED r) w) as (cc & G1 & G2); [right; reflexivity|]. exists cc. split; [|exact G2].
  rewrite G1. destruct segs; reflexivity.
Qed.
End Sim.

Lemma lengths_forallb : forall a b : list bytes, map (@length N) a = map (@length N) b ->
  forallb (fun s => blen s =? 0) a = forallb (fun s => blen s =? 0) b.
Proof. induction a as [|x a IH]; intros [|y b] H; try discriminate; [reflexivity|]. cbn in *. injection H as L H. rewrite (IH b H). unfold blen. rewrite L. reflexivity. Qed.

Definition same_result (B : N) (x y : curlcode * option N * req) : Prop :=
  fst x = fst y /\ rq_state (snd y) = rq_state (snd x) /\ rq_out (snd y) = rq_out (snd x) /\ rq_written (snd y) = rq_written (snd x) /\
  rq_cap (snd x) <= 2 * B /\ rq_cap (snd y) <= 2 * B.

Lemma perform_sim E1 E2 B key id u1 u2 r1 r2 w1 w2 : e_zstep E2 = e_zstep E1 -> zstd_ok E1 -> 3 * B < SIZE_MOD ->
  bytes_ok key -> length key = 32%nat -> bytes_ok id -> length id = 32%nat ->
  w_alloc w1 = [] -> w_alloc w2 = [] -> w_nperf w1 = w_nperf w2 ->
  let p1 := e_server E1 u1 (w_nperf w1) in let p2 := e_server E2 u2 (w_nperf w2) in
  encrypted_transfer key id p1 p2 -> blen (concat (p_segs p1)) <= 2 ^ 38 ->
  rq_state r1 = STARTED -> sim B (blen (concat (p_segs p1))) (encrypt_restart key id) r1 r2 ->
  exists x y, curl_easy_perform E1 u1 r1 w1 = (Ok x, after_perform u1 w1) /\ curl_easy_perform E2 u2 r2 w2 = (Ok y, after_perform u2 w2) /\
    same_result B x y /\ (transient (fst (fst x)) -> snd x = r1 /\ snd y = r2).
Proof.
  intros HEz Hz HB3 Hk Lk Hi Li A1 A2 Hn p1 p2 (P1 & P2 & P3 & P4 & P5) L38 Hst Hs.
  unfold curl_easy_perform. fold p1. fold p2. fold (after_perform u1 w1). fold (after_perform u2 w2).
  rewrite P1, P2.
  destruct (transient_dec (p_end p1)) as [HT|HT].
  { specialize (P4 HT). rewrite P4 in *. destruct (p_segs p2); [|discriminate P3]. cbn [curl_deliver]. unfold bind, ret.
    eexists. eexists. split; [reflexivity|]. split; [reflexivity|]. split; [|auto]. destruct Hs as (S1 & S2 & S3 & S4 & C1 & C2 & _).
    unfold same_result. cbn [fst snd]. parts. }
  assert (Hcode : p_code p1 = Some 200 \/ p_code p1 <> Some 200).
  { destruct (p_code p1) as [x|]; [|right; discriminate]. destruct (N.eq_dec x 200) as [->|]; [left; reflexivity|right; congruence]. }
  destruct Hcode as [H200|H200].
  - specialize (P5 H200). rewrite H200.
    assert (ES : p_segs p2 = fst (encrypt_calls (encrypt_restart key id) (p_segs p1))).
    { rewrite restart_nonce by lia. destruct (encrypt_restart_for key (firstn 24 id)) as [F P].
      destruct (encrypt_calls_spec key (firstn 24 id) Hk Lk ltac:(now apply bytes_ok_firstn) ltac:(rewrite firstn_length; lia) (p_segs p1) (encrypt_restart key (firstn 24 id)) F) as [G1 G2].
      { rewrite P. exact L38. }
      rewrite P in G1. apply concat_lengths_inj; [rewrite G1, P5; reflexivity|rewrite G2; exact P3]. }
    destruct (deliver_sim E1 E2 B HEz Hz HB3 (p_end p1) (p_segs p1) (encrypt_restart key id) r1 r2 w_null eq_refl Hs) as (cc & q1 & q2 & c' & D1 & D2 & rest & D3).
    assert (TW : forall E segs fin r wa cc q, w_alloc wa = [] -> curl_deliver E (Some 200) segs fin r w_null = (Ok (cc, q), w_null) ->
       curl_deliver E (Some 200) segs fin r wa = (Ok (cc, q), wa)).
    { clear. intros E segs fin. induction segs as [|s segs IH]; intros r wa cc q Ha H; cbn [curl_deliver] in *; [injection H as <- <-; reflexivity|].
      unfold bind in *. rewrite (cb_world E _ s r wa Ha). rewrite (cb_world E _ s r w_null eq_refl) in H.
      destruct (fst (store_http_data_cb E (Some 200) s r w_null)) as [[k r1]| | |]; try discriminate H.
      destruct (k =? blen s); [apply IH; assumption|]. injection H as <- <-. reflexivity. }
    unfold bind. rewrite (TW _ _ _ _ (after_perform u1 w1) _ _ A1 D1). rewrite <- ES in D2. rewrite (TW _ _ _ _ (after_perform u2 w2) _ _ A2 D2).
    eexists. eexists. split; [reflexivity|]. split; [reflexivity|]. destruct D3 as (S1 & S2 & S3 & S4 & C1 & C2 & _). split; [unfold same_result; cbn [fst snd rq_set_state rq_state rq_out rq_written rq_cap]; parts|].
    cbn [fst snd]. intros T. exfalso. revert D1 T HT. clear. intros D1 T HT.
    assert (G : forall segs r cc q, curl_deliver E1 (Some 200) segs (p_end p1) r w_null = (Ok (cc, q), w_null) -> cc = p_end p1 \/ cc = CURLE_WRITE_ERROR).
    { intros segs. induction segs as [|s segs IH]; intros r cc0 q H; cbn [curl_deliver] in H; [injection H as <- _; auto|].
      unfold bind in H. rewrite (cb_world E1 _ s r w_null eq_refl) in H.
      destruct (fst (store_http_data_cb E1 (Some 200) s r w_null)) as [[k r1x]| | |]; try discriminate H.
      destruct (k =? blen s); [eapply IH, H|]. injection H as <- _. auto. }
    destruct (G _ _ _ _ D1) as [->| ->]; [auto|]. destruct T as [T|[T|T]]; discriminate.
  - destruct (deliver_bad E1 (p_code p1) (p_end p1) H200 (p_segs p1) r1 (after_perform u1 w1)) as (c1 & D1 & D1'); [auto|].
    destruct Hs as (S1 & S2 & S3 & S4 & C1 & C2 & _).
    destruct (deliver_bad E2 (p_code p1) (p_end p1) H200 (p_segs p2) r2 (after_perform u2 w2)) as (c2 & D2 & D2'); [left; congruence|].
    rewrite (lengths_forallb _ _ P3) in D2'. assert (c2 = c1) by congruence. subst c2.
    unfold bind. rewrite D1, D2. eexists. eexists. split; [reflexivity|]. split; [reflexivity|]. split.
    + unfold same_result. cbn [fst snd]. destruct (p_segs p1), (p_segs p2); try discriminate P3; cbn [fst snd]; unfold rq_set_state; cbn [rq_state rq_out rq_written rq_cap]; parts.
    + cbn [fst snd]. intros T. exfalso. rewrite D1' in T. destruct (forallb _ _); [contradiction|]. destruct T as [T|[T|T]]; discriminate.
Qed.

Lemma retried_sim E1 E2 B key id u1 u2 : e_zstep E2 = e_zstep E1 -> zstd_ok E1 -> 3 * B < SIZE_MOD ->
  bytes_ok key -> length key = 32%nat -> bytes_ok id -> length id = 32%nat -> 
  forall rem us r1 r2 w1 w2, (0 < rem)%nat -> w_alloc w1 = [] -> w_alloc w2 = [] -> w_nperf w1 = w_nperf w2 ->
  w_kcapi w1 = w_kcapi w2 -> w_kev w1 = w_kev w2 ->
  (forall i, (i < rem)%nat -> let p1 := e_server E1 u1 (w_nperf w1 + i) in
     encrypted_transfer key id p1 (e_server E2 u2 (w_nperf w1 + i)) /\ blen (concat (p_segs p1)) <= 2 ^ 38 /\ blen (concat (p_segs p1)) <= B) ->
  rq_state r1 = STARTED -> rq_dec r1 = [] -> sim B 0 (encrypt_restart key id) r1 r2 ->
  exists x y w1' w2', retried_curl_easy_perform E1 u1 rem us r1 w1 = (Ok x, w1') /\ retried_curl_easy_perform E2 u2 rem us r2 w2 = (Ok y, w2') /\
    same_result B x y /\ w_kcapi w1' = w_kcapi w2' /\ w_kev w1' = w_kev w2'.
Proof.
  intros HEz Hz HB3 Hk Lk Hi Li. induction rem as [|rem IH]; intros us r1 r2 w1 w2 Hr A1 A2 Hn K1 K2 HS Hst Hd Hs; [lia|].
  cbn [retried_curl_easy_perform].
  destruct (HS 0%nat ltac:(lia)) as (T1 & T2 & T3). rewrite Nat.add_0_r in *.
  assert (Hs0 : sim B (blen (concat (p_segs (e_server E1 u1 (w_nperf w1))))) (encrypt_restart key id) r1 r2).
  { destruct Hs as (S1 & S2 & S3 & S4 & C1 & C2 & S5). unfold sim. repeat (split; [solve [auto]|]). intros X. destruct (S5 X) as (D1 & D2 & D3 & D4 & D5 & D6).
    repeat (split; [solve [auto]|]). rewrite Hd. unfold blen at 1. cbn. exact T3. }
  destruct (perform_sim E1 E2 B key id u1 u2 r1 r2 w1 w2) as (x & y & P1 & P2 & P3 & P4); auto; [rewrite <- Hn; exact T1|].
  unfold bind at 1 3. rewrite P1, P2. destruct x as [[c code] q1], y as [[c2 code2] q2]. 
  destruct P3 as (R1 & R2 & R3 & R4 & R5 & R6). cbn [fst snd] in *. injection R1 as <- <-.
  destruct (negb (curl_is_transient_error c)) eqn:ET.
  - eexists. eexists. eexists. eexists. split; [reflexivity|]. split; [reflexivity|]. split; [unfold same_result; cbn [fst snd rq_set_state rq_state rq_out rq_written rq_cap]; parts|]. cbn. auto.
  - assert (HT : transient c) by (apply is_transient; now destruct (curl_is_transient_error c)).
    destruct (P4 HT) as [-> ->]. unfold bind, trace. cbv zeta. destruct rem as [|rem].
    + eexists. eexists. eexists. eexists. split; [reflexivity|]. split; [reflexivity|]. split; [unfold same_result; cbn [fst snd rq_set_state rq_state rq_out rq_written rq_cap]; parts|]. cbn. auto.
    + apply IH; cbn; auto; [lia|]. intros i Hi'. replace (S (w_nperf w1 + i)) with (w_nperf w1 + S i)%nat by lia. apply HS. lia.
Qed.

(** The answer, the buffer and the error counter of a request, and how it ended *)
Definition answer_of (x : outcome (option N * bytes * hstore)) : outcome (option N * bytes * N) :=
  match x with Ok (r, out, hs) => Ok (r, out, hs_err hs) | Abort => Abort | UB => UB | Halt => Halt end.

Lemma sha_fst E1 E2 d w1 w2 : e_H E1 = e_H E2 -> w_kcapi w1 = w_kcapi w2 -> w_kev w1 = w_kev w2 ->
  fst (chunk_calculate_id E1 d w1) = fst (chunk_calculate_id E2 d w2).
Proof.
  intros H1 H2 H3. unfold chunk_calculate_id, sha_once. rewrite H1, H2, H3.
  destruct (negb (w_kcapi w2)); [reflexivity|]. destruct (kc_send d (w_kev w2)) as [[[x|]|x] kv]; try reflexivity.
  destruct (kc_recv kv) as [[[|]|x] kv']; reflexivity.
Qed.

Lemma http_encrypted E srv hs key id out w B : zstd_ok E -> http_ok hs -> hs_key hs = None -> bytes_ok key -> length key = 32%nat ->
  bytes_ok id -> length id = 32%nat -> w_alloc w = [] -> hs_dec_cap hs <= 2 * B -> 3 * B < SIZE_MOD ->
  let hs2 := mkHStore (hs_base hs) (hs_url_cap hs) (hs_dec_cap hs) (hs_err hs) (Some key) in
  (forall i, (i < 10)%nat -> let p := e_server E (chunk_url hs id) (w_nperf w + i) in
     encrypted_transfer key id p (srv (chunk_url hs2 id) (w_nperf w + i)%nat) /\ blen (concat (p_segs p)) <= 2 ^ 38 /\ blen (concat (p_segs p)) <= B) ->
  answer_of (fst (store_http_get_chunk (with_server E srv) hs2 id out w)) = answer_of (fst (store_http_get_chunk E hs id out w)).
Proof.
  intros Hz (Hu & Hcap) Hkey Hk Lk Hi Li Ha HB HB3 hs2 HS.
  pose proof (chunk_url_length hs id Li) as Lu. pose proof (chunk_url_length hs2 id Li) as Lu2. change (hs_base hs2) with (hs_base hs) in Lu2.
  unfold store_http_get_chunk. 
  assert (SU : forall h, hs_url_cap h = hs_url_cap hs -> blen (chunk_url h id) <= blen (hs_base hs) + CHUNK_SUFFIX_MAX_LEN ->
     set_url h id w = (Ok (Some (chunk_url h id)), w)).
  { intros h Hh Lh. unfold set_url. rewrite Hh. replace (hs_url_cap hs <? blen (chunk_url h id) + 1) with false by lia. unfold bind, alloc. rewrite Ha. reflexivity. }
  rewrite (bind_eq _ _ _ _ _ (SU hs eq_refl Lu)), (bind_eq _ _ _ _ _ (SU hs2 eq_refl Lu2)). rewrite Hkey. cbn [hs_key hs2].
  assert (AL : alloc w = (Ok true, w)) by (unfold alloc; now rewrite Ha).
  rewrite (bind_eq _ _ _ _ _ AL). rewrite (bind_eq (ret true) _ w true w eq_refl). cbn [negb].
  destruct (retried_sim E (with_server E srv) B key id (chunk_url hs id) (chunk_url hs2 id) eq_refl Hz HB3 Hk Lk Hi Li CONNECT_TRIES 200000
     (mkReq STARTED out 0 [] (hs_dec_cap hs) [] None) (mkReq STARTED out 0 [] (hs_dec_cap hs2) [] (Some (encrypt_restart key id))) w w)
    as (x & y & w1 & w2 & R1 & R2 & (R3 & R4 & R5 & R6 & R7 & R8) & K1 & K2); auto.
  { unfold CONNECT_TRIES. lia. }
  { unfold sim. cbn [rq_state rq_out rq_written rq_zhist rq_cap rq_dec rq_cipher hs_dec_cap hs2]. unfold blen. cbn [length N.of_nat]. parts. intros _. parts. }
  cbv zeta. rewrite (bind_eq _ _ _ _ _ R1), (bind_eq _ _ _ _ _ R2).
  destruct x as [[c code] q1], y as [[c2 code2] q2]. cbn [fst snd] in *. injection R3 as <- <-.
  destruct (curl_is_transient_error c); [cbn; rewrite R5; reflexivity|].
  assert (F : forall n h1 h2, hs_err h1 = hs_err h2 ->
    answer_of (fst (ret (n, rq_out q2, h1) w2)) = answer_of (fst (ret (n, rq_out q1, h2) w1))) by (intros; cbn; congruence).
  destruct c; try (apply F; reflexivity).
  all: destruct code as [s|]; try (apply F; reflexivity).
  all: destruct ((s =? 404) || (s =? 410)); try (apply F; reflexivity).
  all: destruct (400 <=? s); [destruct (increase_error_counter (hs_err hs)) as [e rv] eqn:EI; cbn [hs_err hs2]; rewrite EI; apply F; reflexivity|].
  all: rewrite R4; destruct (rq_state q1); try (apply F; reflexivity).
  all: pose proof (sha_fst (with_server E srv) E (firstn (rq_written q1) (rq_out q1)) w2 w1 eq_refl (eq_sym K1) (eq_sym K2)) as SF.
  all: rewrite R5, R6; unfold bind.
  all: destruct (chunk_calculate_id (with_server E srv) _ w2) as [[a| | |] v2]; destruct (chunk_calculate_id E _ w1) as [[a'| | |] v1];
    cbn [fst] in SF; try discriminate SF; try reflexivity; injection SF as ->; destruct (negb (beq a' id)); cbn; congruence.
Qed.
