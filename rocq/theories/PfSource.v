(** Where the data of an HTTP store comes from. *)
From Verif Require Import Base Lib Utils Sha Encrypt Chunker Caibx StoreHttp Chain MainProg SpecBasic SpecCrypto SpecEnv SpecStore SpecHttp SpecCaibx SpecMain SpecRun SpecOrder SpecSource
  PfUtils PfBasic PfIO PfEncrypt PfFrame PfIndex PfLocal PfKeyspec PfHttp PfHttp4 PfRun.
Local Open Scope N_scope.

Section Pieces.
Variables (E : env) (L : nat) (c0 : option cipher) (ok200 : Prop).
Definition plain (x : bytes) : bytes := match c0 with Some c => fst (encrypt_do c x) | None => x end.
Definition ciph (x : bytes) : option cipher := match c0 with Some c => Some (snd (encrypt_do c x)) | None => None end.
Definition decr (x y : bytes) : bytes := match ciph x with Some c => fst (encrypt_do c y) | None => y end.
Lemma plain_app a b : plain (a ++ b) = plain a ++ decr a b.
Proof. unfold plain, decr, ciph. destruct c0; [apply encrypt_do_app|reflexivity]. Qed.
Lemma ciph_app a b : ciph (a ++ b) = match ciph a with Some c => Some (snd (encrypt_do c b)) | None => None end.
Proof. unfold ciph. destruct c0; [|reflexivity]. f_equal. apply encrypt_do_app. Qed.
Lemma ciph_nil : ciph [] = c0.
Proof. unfold ciph. destruct c0 as [[k i p]|]; [|reflexivity]. unfold encrypt_do. cbn [snd ci_key ci_iv ci_pos length]. now rewrite Nat.add_0_r. Qed.
Lemma plain_nil : plain [] = [].
Proof. unfold plain. destruct c0 as [c|]; [|reflexivity]. reflexivity. Qed.
Lemma decr_length a b : length (decr a b) = length b.
Proof. unfold decr. destruct (ciph a); [apply length_encrypt_do|reflexivity]. Qed.

(** The request after the pieces [got]. *)
Record ongoing (got : list bytes) (r : req) : Prop := mkOngoing {
  og_ok : req_ok L r;
  og_state : rq_state r = STARTED /\ rq_zhist r = [] /\ rq_written r = O \/ rq_state r = STREAMING /\ rq_zhist r <> [] /\ ok200;
  og_ciph : rq_cipher r = ciph (concat got);
  og_dec : exists ps, map (@length N) ps = map (@length N) got /\ concat ps = plain (concat got) /\
    decoding E L ps (rq_dec r) (rq_zhist r) (firstn (rq_written r) (rq_out r)) }.
Definition ongoing_or (got : list bytes) (r : req) : Prop := req_ok L r /\ (rq_state r <> FAILED -> ongoing got r).

Hypothesis Hz : zstd_ok E.

Lemma concat_snoc (l : list bytes) x : concat (l ++ [x]) = concat l ++ x.
Proof. rewrite concat_app. cbn. now rewrite app_nil_r. Qed.

(** One more piece *)
Lemma ongoing_handle got r x r0 w : ok200 -> ongoing got r ->
  rq_state r0 = rq_state r -> rq_zhist r0 = rq_zhist r -> rq_written r0 = rq_written r -> rq_out r0 = rq_out r -> length (rq_out r0) = L -> (rq_written r0 <= L)%nat ->
  wp (handle_data E r0 (rq_dec r ++ decr (concat got) x)) (fun a w' => w' = w /\ forall c, fst a = Some c ->
       rq_dec (snd a) = rq_dec r0 /\ rq_cap (snd a) = rq_cap r0 /\ rq_cipher (snd a) = rq_cipher r0 /\ (c <= length (rq_dec r ++ decr (concat got) x))%nat /\
       length (rq_out (snd a)) = L /\ (rq_written (snd a) <= L)%nat /\
       forall r', rq_state r' = rq_state (snd a) -> rq_zhist r' = rq_zhist (snd a) -> rq_written r' = rq_written (snd a) -> rq_out r' = rq_out (snd a) ->
         rq_dec r' = skipn c (rq_dec r ++ decr (concat got) x) -> rq_cipher r' = ciph (concat (got ++ [x])) -> req_ok L r' -> ongoing (got ++ [x]) r') nobad w.
Proof.
  intros H2 [O1 O2 O3 (ps & P1 & P2 & P3)] S1 S2 S3 S4 Lo Lw. unfold handle_data. rewrite S1, S2, S3, S4 in *. set (d := decr (concat got) x).
  assert (PP : map (@length N) (ps ++ [d]) = map (@length N) (got ++ [x]) /\ concat (ps ++ [d]) = plain (concat (got ++ [x]))).
  { rewrite !map_app, P1, !concat_snoc, P2, plain_app. cbn [map]. unfold d. now rewrite decr_length. }
  destruct PP as (PP1 & PP2).
  assert (Step : forall hist dc dp, e_zstep E hist (rq_dec r ++ d) (length (rq_out r) - rq_written r) = Some (dc, dp) ->
     decoding E L (ps ++ [d]) (skipn dc (rq_dec r ++ d)) ((rq_dec r ++ d, (length (rq_out r) - rq_written r)%nat) :: rq_zhist r) (firstn (rq_written r) (rq_out r) ++ dp) ->
     wp (ret (Some dc, mkReq STREAMING (overlay_at (rq_written r) dp (rq_out r)) (rq_written r + length dp) (rq_dec r0) (rq_cap r0)
           ((rq_dec r ++ d, (length (rq_out r) - rq_written r)%nat) :: rq_zhist r) (rq_cipher r0)))
      (fun a w' => w' = w /\ forall c, fst a = Some c ->
       rq_dec (snd a) = rq_dec r0 /\ rq_cap (snd a) = rq_cap r0 /\ rq_cipher (snd a) = rq_cipher r0 /\ (c <= length (rq_dec r ++ d))%nat /\
       length (rq_out (snd a)) = L /\ (rq_written (snd a) <= L)%nat /\
       forall r', rq_state r' = rq_state (snd a) -> rq_zhist r' = rq_zhist (snd a) -> rq_written r' = rq_written (snd a) -> rq_out r' = rq_out (snd a) ->
         rq_dec r' = skipn c (rq_dec r ++ d) -> rq_cipher r' = ciph (concat (got ++ [x])) -> req_ok L r' -> ongoing (got ++ [x]) r') nobad w).
  { intros hist dc dp EZ HD. destruct (Hz _ _ _ _ _ EZ) as (Z1 & Z2). apply wp_ret. split; [reflexivity|]. intros c Hc. injection Hc as <-.
    cbn [fst snd rq_dec rq_cap rq_cipher rq_out rq_written rq_state rq_zhist]. split; [reflexivity|]. split; [reflexivity|]. split; [reflexivity|]. split; [exact Z1|].
    split; [rewrite length_overlay_at; lia|]. split; [lia|]. intros r' R1 R2 R3 R4 R5 R6 R7. constructor; auto.
    - right. rewrite R1, R2. split; [reflexivity|]. split; [discriminate|exact H2].
    - exists (ps ++ [d]). split; [exact PP1|]. split; [exact PP2|]. rewrite R2, R3, R4, R5, firstn_overlay_at by lia. exact HD. }
  destruct O2 as [(A1 & A2 & A3)|(A1 & A2 & A3)]; rewrite A1.
  - rewrite A3 in *. cbn [firstn] in P3. rewrite A2 in *.
    destruct (N.ltb_spec (blen (rq_dec r ++ d)) 4) as [L4|L4].
    { apply wp_ret. split; [reflexivity|]. intros c Hc. injection Hc as <-. cbn [fst snd]. split; [reflexivity|]. split; [reflexivity|]. split; [reflexivity|]. split; [lia|].
      split; [now rewrite S4|]. split; [lia|]. intros r' R1 R2 R3 R4 R5 R6 R7. rewrite S1, A1 in R1. rewrite S2 in R2. rewrite S3 in R3. constructor; auto.
      exists (ps ++ [d]). split; [exact PP1|]. split; [exact PP2|]. rewrite R2, R3, R5. cbn [firstn skipn]. apply dg_wait; [exact P3|]. unfold blen in L4. lia. }
    destruct (beq (firstn 4 (rq_dec r ++ d)) ZSTD_MAGIC) eqn:EM; cbn [negb].
    2:{ apply wp_ret. split; [reflexivity|]. discriminate. }
    cbn zeta. destruct (e_zstep E [] (rq_dec r ++ d) (length (rq_out r) - 0)) as [[dc dp]|] eqn:EZ.
    + rewrite Nat.add_0_l in *. eapply Step; [exact EZ|]. cbn [firstn app]. rewrite Nat.sub_0_r, Lo in *. apply dg_begin; [exact P3|now apply beq_eq|exact EZ].
    + apply wp_ret. split; [reflexivity|]. discriminate.
  - cbn zeta. destruct (e_zstep E (rq_zhist r) (rq_dec r ++ d) (length (rq_out r) - rq_written r)) as [[dc dp]|] eqn:EZ.
    + eapply Step; [exact EZ|]. assert (LF : length (firstn (rq_written r) (rq_out r)) = rq_written r) by (rewrite firstn_length; lia).
      rewrite Lo in *. pose proof (dg_next E L ps (rq_dec r) (rq_zhist r) _ d dc dp A2 P3) as HD. rewrite LF in HD. exact (HD EZ).
    + apply wp_ret. split; [reflexivity|]. discriminate.
Qed.

Lemma ongoing_absorb r data w : blen (rq_dec r) <= rq_cap r -> rq_cap r < SIZE_MOD -> blen data < OFF_LIMIT ->
  wp (decode_buffer_absorb r data) (fun x w' => fst x = true -> rq_state (snd x) = rq_state r /\ rq_zhist (snd x) = rq_zhist r /\ rq_written (snd x) = rq_written r /\ rq_out (snd x) = rq_out r /\
       rq_dec (snd x) = rq_dec r ++ match rq_cipher r with Some c => fst (encrypt_do c data) | None => data end /\
       rq_cipher (snd x) = match rq_cipher r with Some c => Some (snd (encrypt_do c data)) | None => None end /\
       blen (rq_dec (snd x)) <= rq_cap (snd x) /\ rq_cap (snd x) < SIZE_MOD) (fun _ _ => True) w.
Proof.
  intros H3 H4 Hd. unfold decode_buffer_absorb.
  set (grow := _ <? blen data). set (ns := _ mod _).
  destruct (grow && (ns <? rq_cap r)) eqn:EO; [apply wp_ret; discriminate|].
  apply wp_bind. apply wp_any; [|auto]. intros a w'. destruct (negb a); [apply wp_ret; discriminate|].
  destruct (N.ltb_spec (if grow then ns else rq_cap r) (blen (rq_dec r) + blen data)) as [Hc|Hc]; [now apply wp_ub|].
  assert (Hs : (if grow then ns else rq_cap r) < SIZE_MOD) by (destruct grow; [apply N.mod_lt; discriminate|exact H4]).
  destruct (rq_cipher r) as [c|].
  - pose proof (length_encrypt_do c data) as L1. destruct (encrypt_do c data) as [d c'] eqn:Ee. cbn [fst snd] in *. apply wp_ret. intros _. cbn.
    repeat (split; [reflexivity|]). split; [rewrite blen_app; unfold blen in *; lia|exact Hs].
  - apply wp_ret. intros _. cbn. repeat (split; [reflexivity|]). split; [now rewrite blen_app|exact Hs].
Qed.

Lemma ongoing_cb got code x r w : (code = Some 200 -> ok200) -> blen x < OFF_LIMIT -> ongoing_or got r ->
  wp (store_http_data_cb E code x r) (fun a w' => ongoing_or (got ++ [x]) (snd a)) (fun _ _ => True) w.
Proof.
  intros H2 Hx (HR & HO).
  assert (Hok : wp (store_http_data_cb E code x r) (fun a w' => req_ok L (snd a)) (fun _ _ => True) w).
  { eapply wp_mono; [apply (wp_data_cb E L); auto| |auto]. intros a w' (_ & A & _). exact A. }
  enough (G : wp (store_http_data_cb E code x r) (fun a w' => req_ok L (snd a) -> rq_state (snd a) <> FAILED -> ongoing (got ++ [x]) (snd a)) (fun _ _ => True) w).
  { eapply wp_mono; [apply (wp_conj _ _ _ _ _ _ _ Hok G)| |auto]. intros a w' (A & B). split; auto. }
  clear Hok. unfold store_http_data_cb.
  destruct (match rq_state r with STARTED => _ | _ => _ end) eqn:Es; [apply wp_ret; intros _ X; now elim X|].
  destruct (rq_state r) eqn:ES; [| |apply wp_ret; cbn; intros _ X; congruence].
  1,2: specialize (HO ltac:(discriminate)).
  1,2: assert (H200 : ok200) by (first [apply H2; destruct code as [cd|]; [|discriminate]; destruct (N.eqb_spec cd 200); [now subst|discriminate]|destruct (og_state _ _ HO) as [(X & _)|(_ & _ & X)]; [congruence|exact X]]).
  1,2: pose proof (og_ok _ _ HO) as (G1 & G2 & G3 & G4); pose proof (og_ciph _ _ HO) as Hci.
  1,2: assert (Ed : (match rq_cipher r with Some c => fst (encrypt_do c x) | None => x end) = decr (concat got) x) by (unfold decr; now rewrite Hci).
  1,2: assert (Ec : (match rq_cipher r with Some c => Some (snd (encrypt_do c x)) | None => None end) = ciph (concat (got ++ [x]))) by (rewrite concat_snoc, ciph_app; now rewrite Hci).
  1,2: destruct (negb (blen (rq_dec r) =? 0) || match rq_cipher r with Some _ => true | None => false end) eqn:EC.
  1,3: apply wp_bind; eapply wp_mono; [apply ongoing_absorb; auto| |auto]; intros [ok r1] w1 A; cbn [fst snd] in A; destruct ok; cbn [negb]; [|apply wp_ret; cbn; intros _ X; now elim X];
       destruct (A eq_refl) as (A1 & A2 & A3 & A4 & A5 & A6 & A7 & A8); rewrite Ed in A5; rewrite Ec in A6; rewrite A5;
       apply wp_bind; eapply wp_mono; [apply (ongoing_handle got r x r1 w1); auto; congruence| |intros ? ? []];
       intros [[c|] r2] w2 (-> & K); cbn [fst snd] in K; [|apply wp_ret; cbn; intros _ X; now elim X];
       destruct (K c eq_refl) as (K1 & K2 & K3 & K4 & K5 & K6 & K7); apply wp_ret; cbn [snd]; intros HRR _; apply K7; auto; cbn; congruence.
  1,2: apply orb_false_iff in EC as (EC1 & EC2); assert (Dn : rq_dec r = []) by (destruct (rq_dec r); [reflexivity|discriminate]);
       assert (Cn : rq_cipher r = None) by (destruct (rq_cipher r); [discriminate|reflexivity]); rewrite Cn in Ed, Ec;
       apply wp_bind; pose proof (ongoing_handle got r x r w H200 HO eq_refl eq_refl eq_refl eq_refl G1 G2) as K0; rewrite Dn, <- Ed in K0; cbn [app] in K0;
       eapply wp_mono; [exact K0| |intros ? ? []]; clear K0;
       intros [[c|] r2] w2 (-> & K); cbn [fst snd] in K; [|apply wp_ret; cbn; intros _ X; now elim X];
       destruct (K c eq_refl) as (K1 & K2 & K3 & K4 & K5 & K6 & K7);
       destruct (Nat.ltb_spec c (length x)) as [Hlt|Hge];
       [|apply wp_ret; cbn [snd]; intros HRR _; apply K7; auto; [rewrite K1, skipn_all2 by lia; reflexivity|congruence]];
       apply wp_bind; eapply wp_mono; [apply ongoing_absorb; [rewrite K1, K2; rewrite Dn in G3; exact G3|rewrite K2; exact G4|unfold blen in *; rewrite skipn_length; lia]| |auto];
       intros [ok r1] w1 A; cbn [fst snd] in A; destruct ok; cbn [negb]; [|apply wp_ret; cbn; intros _ X; now elim X];
       destruct (A eq_refl) as (A1 & A2 & A3 & A4 & A5 & A6 & A7 & A8); apply wp_ret; cbn [snd]; intros HRR _; apply K7; auto; rewrite K3, Cn in *; [rewrite A5, K1; reflexivity|congruence].
Qed.

Lemma ongoing_deliver code fin : (code = Some 200 -> ok200) -> forall segs got r w, ongoing_or got r -> Forall (fun s => blen s < OFF_LIMIT) segs ->
  wp (curl_deliver E code segs fin r) (fun a w' => req_ok L (snd a) /\ (rq_state (snd a) <> FAILED -> fst a = fin /\ ongoing (got ++ segs) (snd a))) (fun _ _ => True) w.
Proof.
  intros H2. induction segs as [|s segs IH]; intros got r w (HR & HO) Hs; cbn [curl_deliver].
  { apply wp_ret. cbn [fst snd]. split; [exact HR|]. intros X. rewrite app_nil_r. auto. }
  inversion_clear Hs as [|? ? S1 S2]. apply wp_bind.
  eapply wp_mono; [apply (wp_conj _ _ _ _ _ _ _ (ongoing_cb got code s r w H2 S1 (conj HR HO)) (wp_data_cb E L code s r w Hz HR S1))| |intros ? ? []; auto].
  intros [k r1] w1 (A & (_ & _ & B)). cbn [fst snd] in *. destruct (k =? blen s) eqn:EK.
  - replace (got ++ s :: segs) with ((got ++ [s]) ++ segs) by (now rewrite <- app_assoc). now apply IH.
  - apply wp_ret. cbn [fst snd]. destruct A as (A & _). split; [exact A|]. intros X. destruct B as [(B & _)|(_ & B)]; [lia|contradiction].
Qed.
End Pieces.

(** ** A request *)
Lemma ongoing_mono E L c0 (P Q : Prop) got r : (P -> Q) -> ongoing E L c0 P got r -> ongoing E L c0 Q got r.
Proof. intros H [A B C D]. constructor; auto. destruct B as [B|(B1 & B2 & B3)]; auto. Qed.

Section Request.
Variables (E : env) (url : bytes) (L : nat) (c0 : option cipher) (first : nat).
Hypothesis (Hz : zstd_ok E) (Hsv : server_ok E).
Definition seen200 (k : nat) : Prop := exists i, (i < k)%nat /\ p_code (e_server E url (first + i)) = Some 200.
(** [k] transfers are over. *)
Definition after (k : nat) (r : req) : Prop := req_ok L r /\ (rq_state r <> FAILED -> ongoing E L c0 (seen200 k) (sent E url first k) r).
Lemma sent_S k : sent E url first (S k) = sent E url first k ++ p_segs (e_server E url (first + k)).
Proof. unfold sent. rewrite seq_S, flat_map_app. cbn. now rewrite app_nil_r. Qed.

Lemma after_perform_spec k r w : w_nperf w = (first + k)%nat -> after k r ->
  wp (curl_easy_perform E url r) (fun x w' => w_nperf w' = (first + S k)%nat /\ snd (fst x) = p_code (e_server E url (first + k)) /\ after (S k) (snd x) /\
     (rq_state (snd x) <> FAILED -> fst (fst x) = p_end (e_server E url (first + k))) /\
     (transient (fst (fst x)) -> transient (p_end (e_server E url (first + k))))) (fun _ _ => True) w.
Proof.
  intros Hn (HR & HO).
  assert (B := wp_perform E L url r w Hz Hsv HR). rewrite Hn in B.
  assert (A : wp (curl_easy_perform E url r) (fun x w' => after (S k) (snd x) /\ (rq_state (snd x) <> FAILED -> fst (fst x) = p_end (e_server E url (first + k)))) (fun _ _ => True) w).
  { unfold curl_easy_perform. set (p := e_server E url (w_nperf w)). 
    change (wp ('(c, r0) <- curl_deliver E (p_code p) (p_segs p) (p_end p) r;; ret (c, p_code p, r0))
      (fun x w' => after (S k) (snd x) /\ (rq_state (snd x) <> FAILED -> fst (fst x) = p_end (e_server E url (first + k)))) (fun _ _ => True) (after_perform url w)).
    subst p. rewrite Hn. set (p := e_server E url (first + k)). apply wp_bind.
    eapply wp_mono; [apply (ongoing_deliver E L c0 (seen200 (S k)) Hz (p_code p) (p_end p)) with (got := sent E url first k)| |auto].
    - intros H. exists k. split; [lia|exact H].
    - split; [exact HR|]. intros X. eapply ongoing_mono; [|apply HO, X]. intros (i & I1 & I2). exists i. split; [lia|exact I2].
    - apply Forall_forall. intros s Hs. eapply Hsv, Hs.
    - intros [c r1] w1 (A1 & A2). apply wp_ret. cbn [fst snd] in *. split.
      + split; [exact A1|]. intros X. rewrite sent_S. apply A2, X.
      + intros X. apply A2, X. }
  eapply wp_mono; [apply (wp_conj _ _ _ _ _ _ _ A B)| |intros ? ? (_ & [])].
  intros [[c code] r1] w1 ((A1 & A2) & ((al & _ & ->) & _ & B3 & B4)). cbn [fst snd] in *.
  split; [cbn; rewrite Hn; lia|]. split; [exact B3|]. split; [exact A1|]. split; [exact A2|].
  intros Ht. destruct B4 as [<-|(-> & _)]; [exact Ht|]. destruct Ht as [?|[?|?]]; discriminate.
Qed.

Lemma after_retried : forall rem k us r w, w_nperf w = (first + k)%nat -> after k r -> (forall i, (i < k)%nat -> transient (p_end (e_server E url (first + i)))) ->
  wp (retried_curl_easy_perform E url rem us r) (fun x w' => exists j, (k <= j < k + rem)%nat /\ after (S j) (snd x) /\ snd (fst x) = p_code (e_server E url (first + j)) /\
     (rq_state (snd x) <> FAILED -> fst (fst x) = p_end (e_server E url (first + j))) /\ (forall i, (i < j)%nat -> transient (p_end (e_server E url (first + i))))) (fun _ _ => True) w.
Proof.
  induction rem as [|rem IH]; intros k us r w Hn HA Ht; cbn [retried_curl_easy_perform]; [now apply wp_halt|].
  apply wp_bind. eapply wp_mono; [apply (after_perform_spec k); auto| |auto].
  intros [[c code] r1] w1 (P1 & P2 & P3 & P4 & P5). cbn [fst snd] in *.
  assert (Here : exists j, (k <= j < k + S rem)%nat /\ after (S j) r1 /\ code = p_code (e_server E url (first + j)) /\
     (rq_state r1 <> FAILED -> c = p_end (e_server E url (first + j))) /\ (forall i, (i < j)%nat -> transient (p_end (e_server E url (first + i))))) by (exists k; split; [lia|]; split; [exact P3|]; split; [exact P2|]; split; [exact P4|exact Ht]).
  destruct (negb (curl_is_transient_error c)) eqn:ET; [apply wp_ret; exact Here|].
  assert (Htr : transient c) by (apply is_transient; now destruct (curl_is_transient_error c)).
  apply wp_bind, wp_trace. cbv zeta. destruct rem as [|rem]; [apply wp_ret; exact Here|].
  eapply wp_mono; [apply (IH (S k)); auto| |auto].
  - intros i Hi. destruct (Nat.eq_dec i k) as [->|Hne]; [apply P5, Htr|apply Ht; lia].
  - intros x w2 (j & J1 & J2). exists j. split; [lia|exact J2].
Qed.
End Request.

Lemma http_gives E hs id out w : zstd_ok E -> server_ok E -> http_ok hs -> length id = 32%nat -> bytes_ok id ->
  (forall k, hs_key hs = Some k -> length k = 32%nat /\ bytes_ok k) ->
  wp (store_http_get_chunk E hs id out) (fun x w' => let '(r, out', hs') := x in forall n, r = Some n -> 0 < n -> gave E (hs_base hs) (hs_key hs) (length out) id (firstn (N.to_nat n) out'))
     (fun _ _ => True) w.
Proof.
  intros Hz Hsv (Hu & Hcap) Lid Hid Hkey. unfold store_http_get_chunk, set_url. apply wp_bind.
  destruct (hs_url_cap hs <? blen (chunk_url hs id) + 1); [now apply wp_ub|].
  apply wp_bind. apply wp_any; [|auto]. intros a w1. apply wp_ret. destruct a; [|apply wp_ret; discriminate].
  apply wp_bind. apply wp_any; [|auto]. intros a w2. destruct a; cbn [negb]; [|apply wp_ret; discriminate].
  apply wp_bind. fold (fresh_req hs id out). set (c0 := match hs_key hs with Some k => Some (encrypt_restart k id) | None => None end).
  eapply wp_mono; [apply (after_retried E (chunk_url hs id) (length out) c0 (w_nperf w2) Hz Hsv CONNECT_TRIES 0 200000 (fresh_req hs id out) w2)| |auto].
  - lia.
  - assert (HR : req_ok (length out) (fresh_req hs id out)) by (unfold req_ok, fresh_req; cbn; unfold blen; cbn; repeat split; auto; lia).
    split; [exact HR|]. intros _. constructor; [exact HR|left; auto| |exists []; split; [reflexivity|]; split; [|cbn; constructor]].
    + symmetry. exact (ciph_nil c0).
    + symmetry. exact (plain_nil c0).
  - intros; lia.
  - intros [[c code] r] w3 (j & J1 & (J2 & J3) & J4 & J5 & J6). cbn [fst snd] in *.
    destruct (curl_is_transient_error c) eqn:ET.
    { unfold increase_error_counter. apply wp_ret. destruct (_ <? _); [discriminate|]. intros n Hn. injection Hn as <-. lia. }
    assert (Fin : (c = CURLE_OK \/ c = CURLE_WRITE_ERROR) -> rq_state r = STREAMING -> (exists s, code = Some s /\ s < 400) ->
      gave E (hs_base hs) (hs_key hs) (length out) id (firstn (rq_written r) (rq_out r))).
    { intros Hc ES Hs. assert (NF : rq_state r <> FAILED) by congruence. specialize (J3 NF). specialize (J5 NF). destruct J3 as [O1 O2 O3 (ps & P1 & P2 & P3)].
      destruct O2 as [(X & _)|(_ & O2 & (i & I1 & I2))]; [congruence|].
      exists (chunk_url hs id), (w_nperf w2), j, ps. split; [apply (chunk_url_layout hs id Lid Hid)|]. split; [unfold CONNECT_TRIES in J1; lia|]. split; [exact J6|].
      split; [split; [now rewrite <- J5|now rewrite <- J4]|]. split; [exists i; split; [lia|exact I2]|]. split; [exact P1|]. split; [|exists (rq_dec r), (rq_zhist r); auto].
      intros HB. set (S0 := concat (sent _ _ _ _)) in *. rewrite P2 in HB |- *. unfold on_the_wire, plain in *. clear - HB Hkey Hid Lid. subst c0. destruct (hs_key hs) as [key|]; [|reflexivity].
      destruct (Hkey key eq_refl) as (K1 & K2). rewrite restart_nonce in HB |- * by lia. destruct (encrypt_restart_for key (firstn 24 id)) as (F1 & F2).
      assert (L0 : N.of_nat (length S0) <= 2 ^ 38) by (unfold blen in HB; rewrite length_encrypt_do in HB; exact HB).
      destruct (encrypt_do_spec key (firstn 24 id) (encrypt_restart key (firstn 24 id)) S0 K2 K1 ltac:(now apply bytes_ok_firstn) ltac:(rewrite firstn_length; lia) F1 ltac:(rewrite F2; exact L0)) as (X & _).
      rewrite X. cbn [fst]. rewrite F2, <- xchacha_from_0. symmetry. apply xchacha_from_invol. }
    assert (Zero : forall k : N, Some 0 = Some k -> 0 < k -> gave E (hs_base hs) (hs_key hs) (length out) id (firstn (N.to_nat k) (rq_out r))) by (intros k Hk; injection Hk as <-; lia).
    destruct c; try discriminate ET; [| |apply wp_ret; discriminate].
    all: destruct code as [s|]; [|apply wp_ret; discriminate]; destruct ((s =? 404) || (s =? 410)); [apply wp_ret; exact Zero|];
      destruct (N.leb_spec 400 s) as [E5|E5]; [unfold increase_error_counter; apply wp_ret; destruct (_ <? _); [discriminate|exact Zero]|];
      destruct (rq_state r) eqn:ES; [apply wp_ret; exact Zero| |apply wp_ret; exact Zero];
      apply wp_bind; apply wp_any; [|auto]; intros act w4; destruct (negb (beq act id)); apply wp_ret; [exact Zero|]; intros k Hk _; injection Hk as <-; rewrite Nat2N.id; apply Fin; eauto.
Qed.
