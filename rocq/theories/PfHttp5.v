(** HTTP stores over time (C28, C31, C33). *)
From Verif Require Import Base Lib Utils Sha Encrypt StoreHttp SpecBasic SpecCrypto SpecEnv SpecStore SpecHttp
  PfUtils PfBasic PfIO PfEncrypt PfKeyspec PfFrame PfIndex PfLocal PfHttp PfHttp2 PfHttp3 PfHttp4.
Ltac Zify.zify_post_hook ::= Z.div_mod_to_equations.
Local Open Scope N_scope.

Lemma ask_http_spec E b : zstd_ok E -> server_ok E -> forall reqs hs w, http_ok hs -> hash_mode b w ->
  Forall (fun r => length (fst r) = 32%nat) reqs ->
  wp (ask_http E hs reqs) (fun rs w' => Forall2 (authentic E b) (firstn (length rs) reqs) rs) (fun bd w' => bd = BHalt) w.
Proof.
  intros Hz Hs. induction reqs as [|[id out] reqs IH]; intros hs w Hh Hm HF; cbn [ask_http].
  { apply wp_ret. constructor. }
  inversion HF as [|? ? L1 HF']; subst. cbn [fst] in L1.
  apply wp_bind. apply (wp_frame none store_ev). { apply frame_http_get; cbn; auto. }
  eapply wp_mono; [apply (wp_http_get E b hs id out w Hz Hs Hh L1 Hm)| |].
  - intros [[r out'] hs'] w1 (A & H1 & _) Q. destruct r as [n|].
    + apply wp_bind. eapply wp_mono; [apply IH; auto| |auto].
      * eapply quiet0_mode; eauto.
      * intros rs w2 H2. apply wp_ret. cbn [length firstn]. constructor; auto.
    + apply wp_ret. cbn [length firstn]. constructor; [exact A|constructor].
  - intros bd w1 (-> & _) _. reflexivity.
Qed.

Lemma use_http_spec E b arg reqs w : zstd_ok E -> server_ok E -> env_strings E -> no_nul arg -> hash_mode b w ->
  Forall (fun r => length (fst r) = 32%nat) reqs ->
  wp (use_http E arg reqs) (fun r w' => match r with Some rs => Forall2 (authentic E b) (firstn (length rs) reqs) rs | None => True end)
     (fun bd w' => bd = BHalt) w.
Proof.
  intros Hz Hs HE Hn Hm HF. unfold use_http. apply wp_bind. apply (wp_frame none store_ev). { apply frame_http_new; cbn; auto. }
  eapply wp_mono; [apply wp_http_new; auto| |auto].
  intros [hs|] w1 H Q; [|apply wp_ret; exact I]. destruct H as (url & params & _ & _ & _ & _ & _ & Hh & _).
  apply wp_bind. eapply wp_mono; [apply ask_http_spec; auto|intros rs w2 H2; apply wp_ret; exact H2|auto].
  eapply quiet0_mode; eauto.
Qed.

(** Transfers and pauses of a request *)
Lemma http_retries E hs id out w r out' hs' w' : zstd_ok E -> server_ok E -> http_ok hs -> length id = 32%nat -> w_alloc w = [] ->
  store_http_get_chunk E hs id out w = (Ok (r, out', hs'), w') ->
  let url := chunk_url hs id in
  exists k slept c, (1 <= k <= 10)%nat /\ w_trace w' = rev (timeline url k slept) ++ w_trace w /\
    (forall i, (S i < k)%nat -> transient (p_end (e_server E url (w_nperf w + i)))) /\
    (c = p_end (e_server E url (w_nperf w + (k - 1))) \/ c = CURLE_WRITE_ERROR) /\
    (slept = true <-> transient c) /\ (slept = true -> k = 10%nat).
Proof.
  intros Hz Hs Hh Lid Ha H url.
  destruct (wp_ok _ _ _ _ _ _ _ (wp_http_get E false hs id out w Hz Hs Hh Lid ltac:(intros X; discriminate)) H) as (_ & _ & _ & [(_ & _ & _ & _ & C)|R]); [contradiction|].
  destruct R as (k & slept & v & K1 & K2 & K3 & K4 & K5 & K6 & (c & st & _ & J2 & J3) & _).
  exists k, slept, c. repeat (split; [solve [auto]|]). split; [|auto]. destruct J2 as [J2|[J2 _]]; auto.
Qed.

(** A store after some requests, made in any states of the world with any buffers; the verdicts on
    them, newest first. *)
Inductive history (E : env) (hs0 : hstore) : list verdict -> hstore -> Prop :=
| h_new : history E hs0 [] hs0
| h_step vs hs v id out w r out' hs' w' : history E hs0 vs hs -> length id = 32%nat -> w_alloc w = [] ->
    store_http_get_chunk E hs id out w = (Ok (r, out', hs'), w') -> judgement E hs id out w v ->
    history E hs0 (v :: vs) hs'.

Lemma judged_fun c code st v1 v2 : judged c code st v1 -> judged c code st v2 -> v1 = v2.
Proof.
  intros H1 H2. unfold transient in *. inversion H1; subst; inversion H2; subst; auto; unfold transient in *; exfalso;
    repeat match goal with H : _ \/ _ |- _ => destruct H end; subst; try congruence; try discriminate; try lia.
Qed.
Lemma judgement_fun E hs id out w v1 v2 : w_alloc w = [] -> judgement E hs id out w v1 -> judgement E hs id out w v2 -> v1 = v2.
Proof.
  intros Ha (c1 & k1 & s1 & (a1 & r1 & b1 & A1 & T1 & <-) & J1) (c2 & k2 & s2 & (a2 & r2 & b2 & A2 & T2 & <-) & J2).
  apply allocs_none in A1; [|exact Ha]. apply allocs_none in A2; [|exact Ha]. subst a1 a2. rewrite T1 in T2. injection T2 as <- <- <- <-.
  eapply judged_fun; eauto.
Qed.

Lemma http_step E hs v id out w r out' hs' w' : zstd_ok E -> server_ok E -> http_ok hs -> length id = 32%nat -> w_alloc w = [] ->
  store_http_get_chunk E hs id out w = (Ok (r, out', hs'), w') -> judgement E hs id out w v ->
  http_ok hs' /\ hs_err hs' = (match v with VError => (hs_err hs + 1) mod 2 ^ 32 | VDecoded => 0 | _ => hs_err hs end) /\
  (r = None <-> v = VDead \/ (v = VError /\ 10 < hs_err hs')).
Proof.
  intros Hz Hs Hh Lid Ha H J.
  destruct (wp_ok _ _ _ _ _ _ _ (wp_http_get E false hs id out w Hz Hs Hh Lid ltac:(intros X; discriminate)) H) as (_ & H2 & _ & [(_ & _ & _ & _ & C)|R]); [contradiction|].
  destruct R as (k & slept & v' & K1 & K2 & K3 & K4 & K5 & K6 & _ & K8 & K9).
  rewrite (judgement_fun _ _ _ _ _ _ _ Ha J K6) in *. split; [exact H2|]. split; [exact K8|].
  destruct v'.
  - rewrite K9. split; auto.
  - rewrite K9. clear K9. split.
    + intros X. right. split; [reflexivity|]. destruct (N.ltb_spec 10 (hs_err hs')); [lia|discriminate].
    + intros [X|[_ X]]; [discriminate|]. replace (10 <? hs_err hs') with true by lia. reflexivity.
  - rewrite K9. split; [discriminate|intros [X|[X _]]; discriminate].
  - rewrite K9. split; [discriminate|intros [X|[X _]]; discriminate].
  - destruct K9 as [n ->]. split; [discriminate|intros [X|[X _]]; discriminate].
Qed.

Lemma errors_since_le vs : errors_since vs <= N.of_nat (length vs).
Proof. induction vs as [|v vs IH]; cbn [errors_since length]; [lia|]. destruct v; lia. Qed.

Lemma history_errors E hs0 : zstd_ok E -> server_ok E -> http_ok hs0 -> hs_err hs0 = 0 -> forall vs hs, history E hs0 vs hs ->
  N.of_nat (length vs) < 2 ^ 32 -> http_ok hs /\ hs_err hs = errors_since vs.
Proof.
  intros Hz Hs Hh H0 vs hs H. induction H as [|vs hs v id out w r out' hs' w' H IH Lid Ha G J]; intros L; [auto|].
  cbn [length] in L. destruct IH as [I1 I2]; [lia|].
  destruct (http_step E hs v id out w r out' hs' w' Hz Hs I1 Lid Ha G J) as (S1 & S2 & _).
  split; [exact S1|]. rewrite S2, I2. pose proof (errors_since_le vs). destruct v; cbn [errors_since]; auto. apply N.mod_small. lia.
Qed.

Lemma history_answer E hs0 vs hs v id out w r out' hs' w' : zstd_ok E -> server_ok E -> http_ok hs0 -> hs_err hs0 = 0 -> history E hs0 vs hs ->
  N.of_nat (length vs) < 2 ^ 32 - 1 -> length id = 32%nat -> w_alloc w = [] ->
  store_http_get_chunk E hs id out w = (Ok (r, out', hs'), w') -> judgement E hs id out w v ->
  (r = None <-> v = VDead \/ (v = VError /\ 10 < errors_since (v :: vs))).
Proof.
  intros Hz Hs Hh H0 H L Lid Ha G J. 
  destruct (history_errors E hs0 Hz Hs Hh H0 vs hs H ltac:(lia)) as [I1 I2].
  destruct (http_step E hs v id out w r out' hs' w' Hz Hs I1 Lid Ha G J) as (_ & S2 & S3).
  rewrite S3. destruct (history_errors E hs0 Hz Hs Hh H0 (v :: vs) hs') as [_ <-]; [econstructor; eauto|cbn [length]; lia|reflexivity].
Qed.

(** Delivery with a key: the XChaCha20 encryption of the body on the wire. *)
Lemma http_delivers_wire E hs id out w body content j B : http_ok hs -> length id = 32%nat -> bytes_ok id ->
  (forall k, hs_key hs = Some k -> length k = 32%nat /\ bytes_ok k) -> kc_clean w -> w_alloc w = [] ->
  decodes E body content -> e_H E content = id -> (length content <= length out)%nat -> blen body <= 2 ^ 38 ->
  blen body <= B -> hs_dec_cap hs <= 2 * B -> 3 * B < SIZE_MOD -> (j < 10)%nat ->
  (forall i, (i < j)%nat -> fails_early E (chunk_url hs id) (w_nperf w + i)) ->
  serves E (chunk_url hs id) (w_nperf w + j) (on_the_wire (hs_key hs) id body) ->
  wp (store_http_get_chunk E hs id out) (fun x w' => let '(r, out', hs') := x in
        r = Some (blen content) /\ out' = overlay content out /\ hs_err hs' = 0 /\ same_store hs hs' /\ hs_dec_cap hs' <= 2 * B)
     (fun bd w' => bd = BHalt /\ w_kcapi w' = true) w.
Proof.
  intros Hh Lid Bid Hk Hc Ha Hd He Hf L38 HB Hcap HB3 Hj Hearly Hserve.
  eapply wp_http_delivers with (body := body) (wire := on_the_wire (hs_key hs) id body); eauto.
  unfold on_the_wire. destruct (hs_key hs) as [k|]; [|reflexivity]. destruct (Hk k eq_refl). now apply wire_plain.
Qed.

(** Every request extends the history. *)
Lemma history_extends E hs0 vs hs id out w r out' hs' w' : zstd_ok E -> server_ok E -> http_ok hs -> history E hs0 vs hs -> length id = 32%nat -> w_alloc w = [] ->
  store_http_get_chunk E hs id out w = (Ok (r, out', hs'), w') -> exists v, history E hs0 (v :: vs) hs'.
Proof.
  intros Hz Hs Hh H Lid Ha G.
  destruct (wp_ok _ _ _ _ _ _ _ (wp_http_get E false hs id out w Hz Hs Hh Lid ltac:(intros X; discriminate)) G) as (_ & H2 & _ & [(_ & _ & _ & _ & C)|R]); [contradiction|].
  destruct R as (k & slept & v' & K1 & K2 & K3 & K4 & K5 & K6 & _). exists v'. eapply h_step with (v := v'); eauto.
Qed.

(** Every server has an encrypting counterpart. *)
Lemma encrypted_server key id (srv : bytes -> nat -> perf) : bytes_ok key -> length key = 32%nat -> bytes_ok id -> length id = 32%nat ->
  (forall u n, transient (p_end (srv u n)) -> p_segs (srv u n) = []) -> (forall u n, blen (concat (p_segs (srv u n))) <= 2 ^ 38) ->
  exists srv2 : bytes -> nat -> perf, forall u n, encrypted_transfer key id (srv u n) (srv2 (u ++ bs ".enc") n).
Proof.
  intros Hk Lk Hi Li Ht L38.
  exists (fun u n => let p := srv (firstn (length u - 4) u) n in
    mkPerf (p_code p) (fst (encrypt_calls (encrypt_restart key (firstn 24 id)) (p_segs p))) (p_end p)).
  intros u1 n. unfold encrypted_transfer. cbn [p_code p_end p_segs]. cbv zeta.
  replace (firstn (length (u1 ++ bs ".enc") - 4) (u1 ++ bs ".enc")) with u1
    by (rewrite app_length; change (length (bs ".enc")) with 4%nat; rewrite Nat.add_sub; now rewrite firstn_exact).
  destruct (encrypt_restart_for key (firstn 24 id)) as [F P].
  destruct (encrypt_calls_spec key (firstn 24 id) Hk Lk ltac:(now apply bytes_ok_firstn) ltac:(rewrite firstn_length; lia) (p_segs (srv u1 n)) (encrypt_restart key (firstn 24 id)) F) as [G1 G2].
  { rewrite P. apply L38. }
  rewrite P in G1. split; [reflexivity|]. split; [reflexivity|]. split; [exact G2|]. split; [apply Ht|]. intros _. rewrite G1. apply xchacha_from_0.
Qed.

Lemma encrypted_url hs id key : hs_key hs = None ->
  chunk_url (mkHStore (hs_base hs) (hs_url_cap hs) (hs_dec_cap hs) (hs_err hs) (Some key)) id = chunk_url hs id ++ bs ".enc".
Proof. intros H. unfold chunk_url. cbn [hs_key hs_base]. rewrite H, app_nil_r. rewrite <- !app_assoc. reflexivity. Qed.

Lemma url_fits hs id : length id = 32%nat -> bytes_ok id -> http_ok hs ->
  casync_url (hs_base hs) id (chunk_url hs id) (is_enc hs) /\ blen (chunk_url hs id) + 1 <= hs_url_cap hs.
Proof. intros L H (Hu & _). split; [now apply chunk_url_layout|]. pose proof (chunk_url_length hs id L). lia. Qed.

Lemma http_segmentation E hs id out w body content B :
  http_ok hs -> hs_key hs = None -> length id = 32%nat -> kc_clean w -> w_alloc w = [] ->
  decodes E body content -> e_H E content = id -> (length content <= length out)%nat ->
  blen body <= B -> hs_dec_cap hs <= 2 * B -> 3 * B < SIZE_MOD ->
  serves E (chunk_url hs id) (w_nperf w) body ->
  wp (store_http_get_chunk E hs id out)
     (fun x _ => let '(r, out', hs') := x in r = Some (blen content) /\ out' = overlay content out /\ hs_err hs' = 0)
     (fun bd w' => bd = BHalt /\ w_kcapi w' = true) w.
Proof.
  intros Hh Hk Lid Hc Ha Hd He Hf HB Hcap HB3 Hs.
  eapply wp_mono; [eapply wp_http_delivers with (body := body) (wire := body) (j := 0%nat); eauto| |auto].
  - now rewrite Hk.
  - lia.
  - intros i Hi. lia.
  - now rewrite Nat.add_0_r.
  - intros [[r o] h] w' (R1 & R2 & R3 & _). auto.
Qed.
