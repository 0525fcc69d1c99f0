(** Delivery of valid bodies (C29, C30, C32). *)
From Verif Require Import Base Lib Utils Sha Encrypt StoreHttp SpecBasic SpecCrypto SpecEnv SpecStore SpecHttp
  PfUtils PfBasic PfIO PfEncrypt PfFrame PfIndex PfLocal PfHttp.
Ltac Zify.zify_post_hook ::= Z.div_mod_to_equations.
Local Open Scope N_scope.

Section Delivery.
Variables (E : env) (body content out0 : bytes) (c0 : option cipher) (B : N).
Hypothesis Hdec : decodes E body content.
Hypothesis Hfit : (length content <= length out0)%nat.
Hypothesis HB : blen body <= B.
Hypothesis HB3 : 3 * B < SIZE_MOD.

(** Plain text of a beginning of what is sent, and the cipher after it *)
Definition plain (x : bytes) : bytes := match c0 with Some c => fst (encrypt_do c x) | None => x end.
Definition ciph (x : bytes) : option cipher := match c0 with Some c => Some (snd (encrypt_do c x)) | None => None end.
Lemma plain_app a b : plain (a ++ b) = plain a ++ match ciph a with Some c => fst (encrypt_do c b) | None => b end.
Proof. unfold plain, ciph. destruct c0; [apply encrypt_do_app|reflexivity]. Qed.
Lemma ciph_app a b : ciph (a ++ b) = match ciph a with Some c => Some (snd (encrypt_do c b)) | None => None end.
Proof. unfold ciph. destruct c0; [|reflexivity]. f_equal. apply encrypt_do_app. Qed.
Lemma plain_length a : length (plain a) = length a.
Proof. unfold plain. destruct c0; [apply length_encrypt_do|reflexivity]. Qed.

Definition core (pre dec : bytes) (r : req) : Prop :=
  (rq_state r = STARTED /\ dec = pre /\ (length pre < 4)%nat /\ rq_written r = 0%nat /\ rq_zhist r = [] /\ rq_out r = out0) \/
  (rq_state r = STREAMING /\ exists c, fed E body content (rq_zhist r) c (rq_written r) /\ (c <= length pre)%nat /\ dec = skipn c pre /\
     (rq_written r <= length content)%nat /\ rq_out r = overlay (firstn (rq_written r) content) out0 /\
     (pre = body -> rq_written r = length content)).

Lemma overlay_next p dp more : skipn p content = dp ++ more -> (p <= length content)%nat ->
  overlay_at p dp (overlay (firstn p content) out0) = overlay (firstn (p + length dp) content) out0 /\ (p + length dp <= length content)%nat.
Proof.
  intros H Hp. assert (L : (p + length dp <= length content)%nat).
  { apply (f_equal (@length N)) in H. rewrite skipn_length, app_length in H. lia. }
  split; [|exact L]. unfold overlay_at, overlay.
  assert (Lp : length (firstn p content) = p) by (rewrite firstn_length; lia).
  rewrite firstn_app_le by lia. rewrite (firstn_all2 (firstn p content)) by lia.
  rewrite firstn_skipn_add, H, firstn_exact. rewrite <- app_assoc. f_equal. f_equal.
  rewrite skipn_app_ge by lia. rewrite <- skipn_add. f_equal. rewrite app_length, Lp. lia.
Qed.

Lemma handle_core pre dec r d rest w : core pre dec r -> d <> [] -> body = (pre ++ d) ++ rest ->
  exists n r2, handle_data E r (dec ++ d) w = (Ok (Some n, r2), w) /\ (n <= length (dec ++ d))%nat /\
    core (pre ++ d) (skipn n (dec ++ d)) r2 /\ rq_dec r2 = rq_dec r /\ rq_cap r2 = rq_cap r /\ rq_cipher r2 = rq_cipher r.
Proof.
  intros Hc Hd Hb. destruct Hdec as ((t & Hmagic) & Hz).
  assert (Step : forall st c, fed E body content (rq_zhist r) c (rq_written r) -> (c <= length pre)%nat -> dec = skipn c pre ->
     (rq_written r <= length content)%nat -> rq_out r = overlay (firstn (rq_written r) content) out0 -> st <> FAILED ->
     exists n r2, match e_zstep E (rq_zhist r) (dec ++ d) (length (rq_out r) - rq_written r) with
        | None => ret (None, rq_set_state STREAMING r)
        | Some (consumed, produced) =>
            ret (Some consumed,
                 mkReq STREAMING (overlay_at (rq_written r) produced (rq_out r))
                       (rq_written r + length produced) (rq_dec r) (rq_cap r)
                       ((dec ++ d, (length (rq_out r) - rq_written r)%nat) :: rq_zhist r) (rq_cipher r))
        end w = (Ok (Some n, r2), w) /\ (n <= length (dec ++ d))%nat /\
    core (pre ++ d) (skipn n (dec ++ d)) r2 /\ rq_dec r2 = rq_dec r /\ rq_cap r2 = rq_cap r /\ rq_cipher r2 = rq_cipher r).
  { intros st c Hf Hcp Hdc Hw Ho _.
    assert (Ed : dec ++ d = skipn c (pre ++ d)) by (rewrite skipn_app_le by lia; now rewrite Hdc).
    assert (Eb : skipn c body = (dec ++ d) ++ rest).
    { rewrite Hb, Ed. rewrite (skipn_app_le c (pre ++ d)) by (rewrite app_length; lia). reflexivity. }
    assert (Lo : length (rq_out r) = length out0).
    { rewrite Ho. apply length_overlay. rewrite firstn_length. lia. }
    destruct (Hz (rq_zhist r) c (rq_written r) (dec ++ d) rest (length (rq_out r) - rq_written r)%nat) as (dc & dp & EZ & Hdc2 & more & Hm & Hend).
    { exact Hf. } { intros X. apply Hd. now apply app_eq_nil in X. } { exact Eb. } { lia. }
    rewrite EZ. eexists. eexists. split; [reflexivity|]. split; [exact Hdc2|]. split; [|auto].
    destruct (overlay_next _ _ _ Hm Hw) as [O1 O2].
    right. cbn [rq_state rq_zhist rq_written rq_out]. split; [reflexivity|]. exists (c + dc)%nat.
    split; [eapply fed_step; eauto; [intros X; apply Hd; now apply app_eq_nil in X|lia]|].
    split. { rewrite Ed, skipn_length in Hdc2. rewrite app_length in *. lia. }
    split; [rewrite Ed, <- skipn_add; reflexivity|]. split; [exact O2|]. split; [rewrite Ho; exact O1|].
    intros Hall. destruct Hend as [_ ->]. { rewrite Hall in Hb. rewrite <- (app_nil_r body) in Hb at 1. now apply app_inv_head in Hb. }
    rewrite app_nil_r in Hm. rewrite <- Hm, skipn_length. lia. }
  unfold handle_data. destruct Hc as [(Hs & Hde & Hl & Hw & Hh & Ho)|(Hs & c & Hf & Hcp & Hdc & Hw & Ho & _)]; rewrite Hs.
  - destruct (N.ltb_spec (blen (dec ++ d)) 4) as [L4|L4].
    + exists 0%nat, r. split; [reflexivity|]. split; [lia|]. split; [|auto]. left. rewrite Hde in *. cbn [skipn].
      repeat split; auto. unfold blen in L4. rewrite app_length in *. lia.
    + assert (EM : beq (firstn 4 (dec ++ d)) ZSTD_MAGIC = true).
      { apply beq_eq. rewrite Hde. transitivity (firstn 4 body); [|rewrite Hmagic; reflexivity].
        rewrite Hb. rewrite (firstn_app_le 4) with (l1 := pre ++ d); [reflexivity|]. unfold blen in L4. rewrite Hde in L4. lia. }
      rewrite EM. cbn [negb]. cbv zeta. apply (Step STARTED 0%nat); try discriminate.
      * rewrite Hh, Hw. constructor.
      * lia.
      * exact Hde.
      * lia.
      * rewrite Hw, Ho. reflexivity.
  - cbv zeta. destruct (Step STREAMING c Hf Hcp Hdc Hw Ho ltac:(discriminate)) as (n & r2 & H1 & H2).
    destruct (e_zstep E (rq_zhist r) (dec ++ d) _) as [[a b]|]; [|discriminate H1]. exists n, r2. split; [exact H1|exact H2].
Qed.

Definition Inv (wpre : bytes) (r : req) : Prop :=
  core (plain wpre) (rq_dec r) r /\ rq_cipher r = ciph wpre /\ blen (rq_dec r) <= rq_cap r /\ rq_cap r <= 2 * B.

Lemma absorb_exact r data w : w_alloc w = [] -> blen (rq_dec r) <= rq_cap r -> rq_cap r <= 2 * B -> blen (rq_dec r) + blen data <= B ->
  exists cap, decode_buffer_absorb r data w = (Ok (true, mkReq (rq_state r) (rq_out r) (rq_written r)
      (rq_dec r ++ match rq_cipher r with Some c => fst (encrypt_do c data) | None => data end) cap (rq_zhist r)
      (match rq_cipher r with Some c => Some (snd (encrypt_do c data)) | None => None end)), w) /\
    blen (rq_dec r) + blen data <= cap /\ cap <= 2 * B.
Proof.
  intros Ha H1 H2 H3. unfold decode_buffer_absorb, SIZE_MOD in *. rewrite (N.mod_small (rq_cap r + blen data)) by lia.
  replace (rq_cap r + blen data <? rq_cap r) with false by lia. rewrite andb_false_r.
  set (grow := _ <? blen data).
  exists (if grow then rq_cap r + blen data else rq_cap r).
  assert (G : blen (rq_dec r) + blen data <= (if grow then rq_cap r + blen data else rq_cap r) /\ (if grow then rq_cap r + blen data else rq_cap r) <= 2 * B).
  { subst grow. destruct (N.ltb_spec (rq_cap r - blen (rq_dec r)) (blen data)); lia. }
  split; [|exact G].
  assert (EA : (if grow then alloc else ret true) w = (Ok true, w)).
  { destruct grow; [|reflexivity]. unfold alloc. now rewrite Ha. }
  unfold bind. rewrite EA. cbn [negb].
  replace (_ <? blen (rq_dec r) + blen data) with false by lia.
  destruct (rq_cipher r) as [c|]; [destruct (encrypt_do c data)|]; reflexivity.
Qed.

Lemma cb_step wpre s rest r w : w_alloc w = [] -> Inv wpre r -> s <> [] -> body = plain (wpre ++ s ++ rest) ->
  exists r2, store_http_data_cb E (Some 200) s r w = (Ok (blen s, r2), w) /\ Inv (wpre ++ s) r2.
Proof.
  intros Ha (Hc & Hci & Hcap & Hcap2) Hs Hb. unfold store_http_data_cb.
  rewrite app_assoc, plain_app in Hb. 
  set (d := match ciph wpre with Some c => fst (encrypt_do c s) | None => s end).
  assert (Ep : plain (wpre ++ s) = plain wpre ++ d) by apply plain_app.
  assert (Ld : length d = length s). { apply (f_equal (@length N)) in Ep. rewrite app_length, !plain_length, app_length in Ep. lia. }
  assert (Hd : d <> []) by (intros X; rewrite X in Ld; destruct s; [congruence|discriminate]).
  assert (Lpre : (length (rq_dec r) <= length (plain wpre))%nat).
  { destruct Hc as [(_ & -> & _)|(_ & c & _ & _ & -> & _)]; [lia|rewrite skipn_length; lia]. }
  assert (LB : blen (rq_dec r) + blen s <= B).
  { apply (f_equal blen) in Hb. rewrite Ep, !blen_app in Hb. unfold blen in *. lia. }
  rewrite Ep in Hb. 
  destruct (handle_core (plain wpre) (rq_dec r) r d _ w Hc Hd Hb) as (n & r2 & EH & Hn & Hc2 & D2 & C2 & Ci2).
  assert (Est : (match rq_state r with STARTED => negb (200 =? 200) | _ => false end) = false) by (destruct (rq_state r); reflexivity).
  rewrite Est. assert (Hnf : rq_state r <> FAILED) by (destruct Hc as [(-> & _)|(-> & _)]; discriminate).
  assert (Hst : forall X Y : M (N * req), match rq_state r with FAILED => X | _ => Y end = Y) by (intros; destruct (rq_state r); congruence).
  rewrite Hst.
  destruct (negb (blen (rq_dec r) =? 0) || match rq_cipher r with Some _ => true | None => false end) eqn:EC.
  - destruct (absorb_exact r s w Ha Hcap Hcap2 LB) as (cap & EA & K1 & K2).
    unfold bind. rewrite EA. cbn [negb]. rewrite Hci in *.
    fold d. set (r1 := mkReq _ _ _ (rq_dec r ++ d) cap _ _).
    assert (Hc1 : core (plain wpre) (rq_dec r) r1) by exact Hc.
    destruct (handle_core (plain wpre) (rq_dec r) r1 d _ w Hc1 Hd Hb) as (n1 & r3 & EH1 & Hn1 & Hc3 & D3 & C3 & Ci3).
    change (rq_dec r1) with (rq_dec r ++ d). rewrite EH1. eexists. split; [reflexivity|].
    unfold Inv. cbn [rq_set_dec rq_dec rq_cipher rq_cap]. rewrite Ep. split; [|split; [|split]].
    + rewrite D3. exact Hc3.
    + rewrite Ci3, ciph_app. reflexivity.
    + rewrite C3, D3. cbn [rq_cap rq_dec r1]. unfold blen in *. rewrite skipn_length, app_length. lia.
    + rewrite C3. exact K2.
  - apply orb_false_elim in EC as [EC1 EC2]. assert (Ed0 : rq_dec r = []).
    { destruct (rq_dec r); [reflexivity|]. unfold blen in EC1. cbn in EC1. discriminate. }
    assert (Ec : rq_cipher r = None) by (destruct (rq_cipher r); [discriminate|reflexivity]).
    rewrite Ec in *. assert (Eds : d = s) by (subst d; rewrite <- Hci; reflexivity).
    rewrite Ed0, Eds in EH, Hn, Hc2. cbn [app] in EH, Hn, Hc2. unfold bind. rewrite EH.
    destruct (Nat.ltb_spec n (length s)) as [G|G].
    + destruct (absorb_exact r2 (skipn n s) w Ha) as (cap & EA & K1 & K2).
      { rewrite D2, C2. exact Hcap. } { rewrite C2. exact Hcap2. } { rewrite D2, Ed0. unfold blen in *. rewrite skipn_length. cbn [length]. lia. }
      rewrite EA. cbn [negb]. eexists. split; [reflexivity|].
      unfold Inv. cbn [rq_dec rq_cipher rq_cap]. rewrite Ci2, D2, Ed0 in *. cbn [app]. rewrite Ep, Eds. split; [exact Hc2|].
      split; [rewrite ciph_app, <- Hci; reflexivity|]. split; [|exact K2]. rewrite blen_nil in K1. lia.
    + eexists. split; [reflexivity|]. unfold Inv. rewrite D2, Ed0, C2, Ci2, Ep, Eds.
      rewrite skipn_all2 in Hc2 by lia. split; [exact Hc2|]. split; [rewrite ciph_app, <- Hci; reflexivity|].
      rewrite Ed0 in Hcap. auto.
Qed.

Lemma deliver_all fin : forall segs wpre r w, w_alloc w = [] -> Inv wpre r -> ~ In [] segs -> body = plain (wpre ++ concat segs) ->
  exists r2, curl_deliver E (Some 200) segs fin r w = (Ok (fin, r2), w) /\ Inv (wpre ++ concat segs) r2.
Proof.
  induction segs as [|s segs IH]; intros wpre r w Ha Hi Hs Hb; cbn [curl_deliver concat] in *.
  - exists r. split; [reflexivity|]. rewrite app_nil_r. exact Hi.
  - destruct (cb_step wpre s (concat segs) r w Ha Hi) as (r1 & E1 & I1); [intros ->; apply Hs; left; reflexivity|exact Hb|].
    unfold bind. rewrite E1. rewrite N.eqb_refl. rewrite app_assoc in *. apply IH; auto. intros X; apply Hs; right; exact X.
Qed.
Lemma Inv_done wire r : Inv wire r -> body = plain wire ->
  rq_state r = STREAMING /\ rq_written r = length content /\ rq_out r = overlay content out0 /\ rq_cap r <= 2 * B.
Proof.
  intros (Hc & _ & _ & Hcap) Hb. rewrite <- Hb in Hc. destruct Hc as [(_ & _ & L & _)|(Hs & c & _ & _ & _ & _ & Ho & Hw)].
  - destruct Hdec as ((t & ->) & _). cbn in L. lia.
  - specialize (Hw eq_refl). rewrite Hw, firstn_all in Ho. auto.
Qed.
End Delivery.

Lemma encrypt_do_nil c : snd (encrypt_do c []) = c.
Proof. destruct c as [k iv p]. unfold encrypt_do. cbn [snd ci_key ci_iv ci_pos length]. now rewrite Nat.add_0_r. Qed.

(** Transfers that fail before any data arrived change nothing. *)
Lemma early_failure E url r w : fails_early E url (w_nperf w) ->
  exists c code, curl_easy_perform E url r w = (Ok (c, code, r), after_perform url w) /\ transient c.
Proof.
  intros (H1 & H2). unfold curl_easy_perform. eexists. eexists. unfold bind. rewrite H1. cbn [curl_deliver]. split; [reflexivity|exact H2].
Qed.

(** Worlds that differ in the transfers made only *)
Definition later (w w' : world) (k : nat) : Prop :=
  w_files w' = w_files w /\ w_io w' = w_io w /\ w_alloc w' = w_alloc w /\ w_kcapi w' = w_kcapi w /\ w_kev w' = w_kev w /\
  w_nperf w' = (w_nperf w + k)%nat.
Lemma later_add w w' k t : later w w' k -> later w (add_trace t w') k. Proof. exact (fun h => h). Qed.

Lemma retried_success E url : forall j rem us r w r2 , (j < rem)%nat ->
  (forall i, (i < j)%nat -> fails_early E url (w_nperf w + i)) ->
  (forall w', later w w' j -> curl_easy_perform E url r w' = (Ok (CURLE_OK, Some 200, r2), after_perform url w')) ->
  exists w', retried_curl_easy_perform E url rem us r w = (Ok (CURLE_OK, Some 200, r2), w') /\ later w w' (S j).
Proof.
  induction j as [|j IH]; intros rem us r w r2 Hj Hf Hp; (destruct rem as [|rem]; [lia|]); cbn [retried_curl_easy_perform]; unfold bind at 1.
  - rewrite Hp by (repeat split; lia). cbn. eexists. split; [reflexivity|]. repeat split; cbn; lia.
  - destruct (early_failure E url r w) as (c & code & E1 & Ht); [specialize (Hf 0%nat ltac:(lia)); now rewrite Nat.add_0_r in Hf|].
    rewrite E1. apply is_transient in Ht. rewrite Ht. cbn [negb]. unfold bind, trace. cbv zeta.
    destruct rem as [|rem]; [lia|].
    destruct (IH (S rem) (N.min ((2 * us) mod M32) 10000000) r (add_trace (TSleep us) (after_perform url w)) r2) as (w' & E2 & L2).
    + lia.
    + intros i Hi. cbn. replace (S (w_nperf w + i)) with (w_nperf w + S i)%nat by lia. apply Hf. lia.
    + intros w' (L1 & L2 & L3 & L4 & L5 & L6). apply Hp. cbn in *. repeat split; auto. lia.
    + exists w'. split; [exact E2|]. destruct L2 as (L1 & L2 & L3 & L4 & L5 & L6). cbn in *. repeat split; auto. lia.
Qed.

(** Without allocation failures the result of a delivery does not depend on the world. *)
Definition w_null : world := mkWorld (fun _ => []) [] [] false [] 0 [].
Lemma absorb_world r d wa : w_alloc wa = [] -> decode_buffer_absorb r d wa = (fst (decode_buffer_absorb r d w_null), wa).
Proof.
  intros Ha. unfold decode_buffer_absorb. destruct (_ && _); [reflexivity|].
  set (g := _ <? blen d). clearbody g.
  assert (Eal : (if g then alloc else ret true) wa = (Ok true, wa)) by (destruct g; unfold alloc; rewrite ?Ha; reflexivity).
  assert (Eal0 : (if g then alloc else ret true) w_null = (Ok true, w_null)) by (destruct g; reflexivity).
  unfold bind. rewrite Eal, Eal0. cbn [negb]. destruct (_ <? _); [reflexivity|].
  destruct (rq_cipher r) as [c|]; [destruct (encrypt_do c d)|]; reflexivity.
Qed.
Lemma handle_world E r d wa : handle_data E r d wa = (fst (handle_data E r d w_null), wa).
Proof.
  unfold handle_data. destruct (rq_state r); [| |reflexivity].
  - destruct (_ <? 4); [reflexivity|]. destruct (negb _); [reflexivity|]. cbv zeta. destruct (e_zstep E _ _ _) as [[? ?]|]; reflexivity.
  - cbv zeta. destruct (e_zstep E _ _ _) as [[? ?]|]; reflexivity.
Qed.
Lemma cb_world E code s r wa : w_alloc wa = [] -> store_http_data_cb E code s r wa = (fst (store_http_data_cb E code s r w_null), wa).
Proof.
  intros Ha. unfold store_http_data_cb. assert (A0 : w_alloc w_null = []) by reflexivity.
  destruct (match rq_state r with STARTED => _ | _ => _ end); [reflexivity|].
  destruct (rq_state r); [| |reflexivity].
  1,2: destruct (negb _ || _); unfold bind.
  1,3: rewrite (absorb_world r s wa Ha); destruct (decode_buffer_absorb r s w_null) as [[[[|] r1]| | |] wx] eqn:Eb; cbn [fst negb]; try reflexivity;
       rewrite (absorb_world r s w_null A0) in Eb; injection Eb as _ <-;
       rewrite (handle_world E r1 _ wa); destruct (handle_data E r1 _ w_null) as [[[[n|] r3]| | |] wy]; reflexivity.
  1,2: rewrite (handle_world E r s wa); destruct (handle_data E r s w_null) as [[[[n|] r3]| | |] wx] eqn:Eh; cbn [fst]; try reflexivity;
       rewrite (handle_world E r s w_null) in Eh; injection Eh as _ <-;
       destruct (Nat.ltb n (length s)); [|reflexivity];
       rewrite (absorb_world r3 _ wa Ha); destruct (decode_buffer_absorb r3 _ w_null) as [[[[|] r4]| | |] wy]; reflexivity.
Qed.
Lemma deliver_world E segs : forall r wa wb, w_alloc wa = [] -> w_alloc wb = [] ->
  fst (curl_deliver E (Some 200) segs CURLE_OK r wa) = fst (curl_deliver E (Some 200) segs CURLE_OK r wb).
Proof.
  induction segs as [|s segs IH]; intros r wa wb Ha Hb; cbn [curl_deliver]; [reflexivity|].
  unfold bind. rewrite (cb_world E _ s r wa Ha), (cb_world E _ s r wb Hb).
  destruct (fst (store_http_data_cb E (Some 200) s r w_null)) as [[k r1]| | |]; try reflexivity.
  destruct (k =? blen s); [apply IH; assumption|reflexivity].
Qed.

(** A valid body is delivered after fewer than ten early failures, for every segmentation. *)
Lemma wp_http_delivers E hs id out w body content wire j B : http_ok hs -> length id = 32%nat -> kc_clean w -> w_alloc w = [] ->
  decodes E body content -> e_H E content = id -> (length content <= length out)%nat ->
  (match hs_key hs with Some k => fst (encrypt_do (encrypt_restart k id) wire) = body | None => wire = body end) ->
  blen body <= B -> hs_dec_cap hs <= 2 * B -> 3 * B < SIZE_MOD -> (j < 10)%nat ->
  (forall i, (i < j)%nat -> fails_early E (chunk_url hs id) (w_nperf w + i)) ->
  serves E (chunk_url hs id) (w_nperf w + j) wire ->
  wp (store_http_get_chunk E hs id out) (fun x w' => let '(r, out', hs') := x in
        r = Some (blen content) /\ out' = overlay content out /\ hs_err hs' = 0 /\ same_store hs hs' /\ hs_dec_cap hs' <= 2 * B)
     (fun bd w' => bd = BHalt /\ w_kcapi w' = true) w.
Proof.
  intros (Hu & Hcap) Lid Hk Ha Hd Hh Hfit Hwire HB Hcap2 HB3 Hj Hf (S1 & S2 & S3 & S4).
  pose proof (chunk_url_length hs id Lid) as Lu. unfold store_http_get_chunk, set_url. apply wp_bind.
  replace (hs_url_cap hs <? blen (chunk_url hs id) + 1) with false by lia.
  apply wp_bind, wp_alloc_allocs. intros a w1 A1 Ha1. specialize (Ha1 Ha). subst a. apply allocs_none in A1; [|exact Ha]. subst w1. apply wp_ret.
  apply wp_bind. apply wp_mono with (Q := fun a w' => w' = w /\ a = true) (R := nobad); [| |intros ? ? []].
  { destruct (hs_key hs); [|apply wp_ret; auto]. apply wp_alloc_allocs. intros a w1 A1 Ha1. split; [now apply allocs_none in A1|auto]. }
  intros a w1 [-> ->]. cbn [negb]. apply wp_bind. fold (fresh_req hs id out).
  set (c0 := match hs_key hs with Some k => Some (encrypt_restart k id) | None => None end).
  assert (Hpl : body = plain c0 wire) by (unfold plain, c0; destruct (hs_key hs); auto).
  assert (Hinv : Inv E body content out c0 B [] (fresh_req hs id out)).
  { unfold Inv, fresh_req, core. cbn [rq_dec rq_cipher rq_cap rq_state rq_out rq_written rq_zhist]. split; [|split; [|split]].
    - left. assert (P0 : plain c0 [] = []) by (apply length_zero_iff_nil; rewrite plain_length; reflexivity). rewrite P0.
      split; [reflexivity|]. split; [reflexivity|]. cbn. repeat split. lia.
    - unfold ciph, c0. destruct (hs_key hs) as [k|]; [|reflexivity]. rewrite encrypt_do_nil. reflexivity.
    - unfold blen; cbn. lia.
    - exact Hcap2. }
  assert (Hdel : exists r2, Inv E body content out c0 B wire r2 /\ forall w', later w w' j ->
     curl_easy_perform E (chunk_url hs id) (fresh_req hs id out) w' = (Ok (CURLE_OK, Some 200, r2), after_perform (chunk_url hs id) w')).
  { destruct (deliver_all E body content out c0 B Hd Hfit HB HB3 CURLE_OK (p_segs (e_server E (chunk_url hs id) (w_nperf w + j))) []
       (fresh_req hs id out) w Ha Hinv S4) as (r2 & E2 & I2); [rewrite S3; exact Hpl|].
    rewrite S3 in I2. exists r2. split; [exact I2|]. intros w' (L1 & L2 & L3 & L4 & L5 & L6).
    destruct (deliver_all E body content out c0 B Hd Hfit HB HB3 CURLE_OK (p_segs (e_server E (chunk_url hs id) (w_nperf w + j))) []
       (fresh_req hs id out) (after_perform (chunk_url hs id) w') ltac:(cbn; congruence) Hinv S4) as (r3 & E3 & I3); [rewrite S3; exact Hpl|].
    unfold curl_easy_perform. rewrite L6, S1, S2. unfold bind. fold (after_perform (chunk_url hs id) w').
    replace (add_trace (TPerform (chunk_url hs id)) (set_nperf (S (w_nperf w + j)) w')) with (after_perform (chunk_url hs id) w') by (unfold after_perform; now rewrite L6).
    rewrite E3.
    (* the result does not depend on the world *)
    assert (Ha' : w_alloc (after_perform (chunk_url hs id) w') = []) by (cbn; congruence).
    pose proof (deliver_world E (p_segs (e_server E (chunk_url hs id) (w_nperf w + j))) (fresh_req hs id out) w _ Ha Ha') as G1.
    rewrite E2, E3 in G1. cbn [fst] in G1. injection G1 as ->. reflexivity. }
  destruct Hdel as (r2 & I2 & Hperf).
  destruct (Inv_done E body content out c0 B Hd Hfit HB HB3 _ _ I2 Hpl) as (D1 & D2 & D3 & D4).
  destruct (retried_success E (chunk_url hs id) j CONNECT_TRIES 200000 (fresh_req hs id out) w r2) as (w2 & E2 & L2);
    [unfold CONNECT_TRIES; lia|exact Hf|exact Hperf|].
  unfold wp at 1. rewrite E2. cbn [curl_is_transient_error]. change ((200 =? 404) || (200 =? 410)) with false. change (400 <=? 200) with false. cbn iota.
  rewrite D1, D2, D3. cbn zeta. apply wp_bind. rewrite firstn_overlay by reflexivity.
  destruct L2 as (L1 & L2 & L3 & L4 & L5 & L6).
  assert (Hk2 : kc_clean w2) by (unfold kc_clean in *; rewrite L4, L5; exact Hk).
  apply (wp_chunk_id E false); [discriminate| |intros kv _; split; reflexivity].
  intros k kv act _ _ Hact. rewrite (Hact Hk2), Hh, beq_refl. cbn [negb]. apply wp_ret.
  split; [reflexivity|]. split; [reflexivity|]. split; [reflexivity|]. split; [repeat split|exact D4].
Qed.
