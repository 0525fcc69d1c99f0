(** A run succeeds when every chunk can be obtained (C05). *)
From Coq Require Import Sorting.Permutation.
From Verif Require Import Base Lib Utils Sha Encrypt Chunker Caibx Index StoreLocal Target StoreHttp Chain Ui MainProg
  SpecBasic SpecCrypto SpecEnv SpecChunker SpecStore SpecHttp SpecCaibx SpecMain SpecRun SpecAvail SpecResume
  PfUtils PfBasic PfIO PfRead PfKeyspec PfIndex PfFrame PfLocal PfHttp PfHttp2 PfHttp3 PfHttp5 PfCaibx PfCaibx2 PfTarget PfChain PfMain PfMain2 PfSetup PfRun PfSync.
Local Open Scope N_scope.

Lemma wp_imp A (P : Prop) (m : M A) (Q : A -> world -> Prop) (R : bad -> world -> Prop) w :
  (P -> wp m Q R w) -> wp m (fun a w' => P -> Q a w') (fun bd w' => P -> R bd w') w.
Proof. unfold wp. destruct (m w) as [[a| | |] w']; auto. Qed.

(** ** HTTP stores do not use the file schedule *)
Definition keeps {A} (m : M A) : Prop := forall w, w_io (snd (m w)) = w_io w /\ (w_kcapi w = false -> w_kcapi (snd (m w)) = false).
Lemma keeps_ret A (a : A) : keeps (ret a). Proof. intros w. auto. Qed.
Lemma keeps_bind A B (m : M A) (k : A -> M B) : keeps m -> (forall a, keeps (k a)) -> keeps (bind m k).
Proof.
  intros Hm Hk w. unfold bind. destruct (Hm w) as (A1 & A2). destruct (m w) as [[a| | |] w1]; cbn [snd] in *; auto.
  destruct (Hk a w1) as (B1 & B2). split; [congruence|auto].
Qed.
Lemma keeps_alloc : keeps alloc. Proof. intros w. unfold alloc. destruct (w_alloc w); auto. Qed.
Lemma keeps_trace t : keeps (trace t). Proof. intros w. auto. Qed.
Lemma keeps_ub A : keeps (@ub A). Proof. intros w. auto. Qed.
Lemma keeps_abort A : keeps (@abort A). Proof. intros w. auto. Qed.
Lemma keeps_halt A : keeps (@halt A). Proof. intros w. auto. Qed.
Lemma keeps_sha E d : keeps (chunk_calculate_id E d).
Proof.
  intros w. unfold chunk_calculate_id, sha_once. destruct (w_kcapi w) eqn:K; cbn [negb snd]; [|auto].
  destruct (kc_send d (w_kev w)) as [[[r|]|[]] kv]; cbn; try (split; [reflexivity|discriminate]).
  destruct (kc_recv kv) as [[[|]|[]] kv2]; cbn; (split; [reflexivity|discriminate]).
Qed.
Ltac keeper := repeat first
  [ apply keeps_ret | apply keeps_ub | apply keeps_abort | apply keeps_halt | apply keeps_alloc | apply keeps_trace | apply keeps_sha
  | apply keeps_bind; [|intros] | match goal with |- keeps (match ?x with _ => _ end) => destruct x end | progress cbv zeta ].
Lemma keeps_absorb r d : keeps (decode_buffer_absorb r d). Proof. unfold decode_buffer_absorb. keeper. Qed.
Lemma keeps_handle E r d : keeps (handle_data E r d). Proof. unfold handle_data. keeper. Qed.
Lemma keeps_cb E c p r : keeps (store_http_data_cb E c p r).
Proof. unfold store_http_data_cb. keeper; try apply keeps_absorb; try apply keeps_handle. Qed.
Lemma keeps_deliver E c fin : forall segs r, keeps (curl_deliver E c segs fin r).
Proof. induction segs as [|s segs IH]; intros r; cbn [curl_deliver]; keeper; [apply keeps_cb|apply IH]. Qed.
Lemma keeps_perform E u r : keeps (curl_easy_perform E u r).
Proof. intros w. unfold curl_easy_perform. cbv zeta. set (w1 := add_trace _ _). change (w_io w) with (w_io w1). change (w_kcapi w) with (w_kcapi w1). generalize w1. apply keeps_bind; [apply keeps_deliver|]. intros []. apply keeps_ret. Qed.
Lemma keeps_retried E u : forall n us r, keeps (retried_curl_easy_perform E u n us r).
Proof.
  induction n as [|n IH]; intros us r; cbn [retried_curl_easy_perform]; [apply keeps_halt|]. apply keeps_bind; [apply keeps_perform|]. intros [[c code] r'].
  destruct (negb _); [apply keeps_ret|]. apply keeps_bind; [apply keeps_trace|]. intros _. cbv zeta. destruct n; [apply keeps_ret|apply IH].
Qed.
Lemma keeps_http E hs id out : keeps (store_http_get_chunk E hs id out).
Proof. unfold store_http_get_chunk, set_url. apply keeps_bind; [keeper|]. intros [u|]; [|apply keeps_ret]. apply keeps_bind; [keeper|]. intros a.
  destruct (negb a); [apply keeps_ret|]. apply keeps_bind; [apply keeps_retried|]. intros [[c code] r]. keeper. Qed.
Lemma keeps_wp A (m : M A) w : keeps m -> forall (Q : A -> world -> Prop) (R : bad -> world -> Prop),
  wp m Q R w -> wp m (fun a w' => Q a w' /\ used 0 w w') (fun bd w' => R bd w' /\ used 0 w w') w.
Proof.
  intros H Q R. unfold wp. destruct (H w) as (A1 & A2). destruct (m w) as [[a| | |] w']; cbn [snd] in *; (intros HQ; split; [exact HQ|]; split; [rewrite A1; lia|exact A2]).
Qed.

(** ** Local stores whose entries are all validated: no hashing, no scan *)
Definition simple_store (s : store) : Prop := match s with SLocal ls => idx_ok (ls_idx ls) /\ all_validated ls | _ => True end.
Lemma wp_local_simple E ls id out w : qsort_ok E -> bsearch_ok E -> idx_ok (ls_idx ls) -> all_validated ls ->
  wp (store_local_get_chunk E ls id out) (fun x w' => let '(r, out', ls') := x in used (blen out) w w' /\ idx_ok (ls_idx ls') /\ all_validated ls')
     (fun bd w' => (transfers (w_io w) < length out)%nat) w.
Proof.
  intros Hq Hb Hx Hv. unfold store_local_get_chunk. change (wp (local_get_loop E (S (length (w_io w))) ls id out)
    (fun x w' => let '(r, out', ls') := x in used (blen out) w w' /\ idx_ok (ls_idx ls') /\ all_validated ls') (fun bd w' => (transfers (w_io w) < length out)%nat) w).
  cbn [local_get_loop]. apply wp_bind, wp_index_query; auto.
  - intros pos x' e Hx' P N1 N2. cbn zeta iota. apply wp_bind. eapply wp_index_get; [exact N1|].
    assert (V' : all_validated (set_idx ls x')) by (intros y Hy; apply Hv; eapply Permutation_in; [symmetry; exact P|exact Hy]).
    destruct (blen out <? en_len e) eqn:El; [apply wp_ret; split; [split; auto; lia|auto]|].
    apply wp_bind, wp_pread_cost; cbn [set_idx ls_ino].
    + intros ev Hs Hr Ho Hbl Ht. cbn [negb]. assert (Ve : validated e) by (apply V'; eapply nth_error_In; exact N1). apply validated_flag in Ve. rewrite Ve.
      apply wp_ret. split; [split; [cbn; lia|auto]|auto].
    + intros ev n Hs Hn Hl Hr Ht. cbn [negb]. apply wp_ret. split; [split; [cbn; lia|auto]|auto].
    + intros Ht. unfold blen in El. lia.
  - intros x' Hx' P Hno. cbn zeta iota. apply wp_ret. split; [split; auto; lia|]. split; [exact Hx'|].
    intros y Hy. apply Hv. eapply Permutation_in; [symmetry; exact P|exact Hy].
Qed.

(** ** One store *)
Lemma wp_conj2 A (m : M A) (Q1 Q2 : A -> world -> Prop) (R1 R2 : bad -> world -> Prop) w : wp m Q1 R1 w -> wp m Q2 R2 w ->
  wp m (fun a w' => Q1 a w' /\ Q2 a w') (fun bd w' => R1 bd w' /\ R2 bd w') w.
Proof. unfold wp. destruct (m w) as [[a| | |] w']; auto. Qed.
Lemma used_more k k' w w' : k <= k' -> used k w w' -> used k' w w'.
Proof. intros H (A & B). split; [lia|exact B]. Qed.
Lemma used_trans k k' w1 w2 w3 : used k w1 w2 -> used k' w2 w3 -> used (k + k') w1 w3.
Proof. intros (A & B) (C & D). split; [lia|auto]. Qed.
Lemma used_refl w : used 0 w w. Proof. split; [lia|auto]. Qed.

Lemma store_quiet ev : store_ev ev -> quiet_ev ev. Proof. destruct ev; cbn; tauto. Qed.

(** ** A server that answers *)
Lemma deliver_missing E code fin : code <> Some 200 -> forall segs r w, rq_state r <> STREAMING -> rq_state r = STARTED \/ rq_state r = FAILED ->
  exists c r', curl_deliver E code segs fin r w = (Ok (c, r'), w) /\ (c = fin \/ c = CURLE_WRITE_ERROR) /\ rq_cap r' = rq_cap r.
Proof.
  intros Hc. induction segs as [|s segs IH]; intros r w Hn Hr; cbn [curl_deliver]; [eexists _, _; split; [reflexivity|]; auto|].
  assert (X : exists r1, store_http_data_cb E code s r w = (Ok (0, r1), w) /\ rq_state r1 = FAILED /\ rq_cap r1 = rq_cap r).
  { unfold store_http_data_cb. destruct Hr as [Hr|Hr]; rewrite Hr.
    - destruct code as [k|]; cbn [negb]; [destruct (N.eqb_spec k 200); [congruence|]|]; cbn [negb]; eexists; (split; [reflexivity|auto]).
    - eexists. split; [reflexivity|auto]. }
  destruct X as (r1 & X1 & X2 & X3). unfold bind. rewrite X1. destruct (0 =? blen s).
  - destruct (IH r1 w) as (c & r' & A & B & C); [congruence|auto|]. exists c, r'. split; [exact A|]. split; [exact B|congruence].
  - eexists _, _. split; [reflexivity|]. auto.
Qed.
Lemma retried_settles E url : forall j rem us r w c code r2, (j < rem)%nat -> ~ transient c ->
  (forall i, (i < j)%nat -> fails_early E url (w_nperf w + i)) ->
  (forall w', later w w' j -> curl_easy_perform E url r w' = (Ok (c, code, r2), after_perform url w')) ->
  exists w', retried_curl_easy_perform E url rem us r w = (Ok (c, code, r2), w') /\ later w w' (S j).
Proof.
  induction j as [|j IH]; intros rem us r w c code r2 Hj Hc Hf Hp; (destruct rem as [|rem]; [lia|]); cbn [retried_curl_easy_perform]; unfold bind at 1.
  - rewrite Hp by (repeat split; lia). apply is_transient_false in Hc. rewrite Hc. cbn. eexists. split; [reflexivity|]. repeat split; cbn; lia.
  - destruct (early_failure E url r w) as (c1 & code1 & E1 & Ht); [specialize (Hf 0%nat ltac:(lia)); now rewrite Nat.add_0_r in Hf|].
    rewrite E1. apply is_transient in Ht. rewrite Ht. cbn [negb]. unfold bind, trace. cbv zeta.
    destruct rem as [|rem]; [lia|].
    destruct (IH (S rem) (N.min ((2 * us) mod M32) 10000000) r (add_trace (TSleep us) (after_perform url w)) c code r2) as (w' & E2 & L2); auto.
    + lia.
    + intros i Hi. cbn. replace (S (w_nperf w + i)) with (w_nperf w + S i)%nat by lia. apply Hf. lia.
    + intros w' (L1 & L2 & L3 & L4 & L5 & L6). apply Hp. cbn in *. repeat split; auto. lia.
    + exists w'. split; [exact E2|]. destruct L2 as (L1 & L2 & L3 & L4 & L5 & L6). cbn in *. repeat split; auto. lia.
Qed.
(** Not there: the request is answered, and nothing about the store changes. *)
Lemma wp_http_missing E hs id out w j : http_ok hs -> length id = 32%nat -> w_alloc w = [] -> (j < 10)%nat ->
  (forall i, (i < j)%nat -> fails_early E (chunk_url hs id) (w_nperf w + i)) ->
  (let p := e_server E (chunk_url hs id) (w_nperf w + j) in (p_code p = Some 404 \/ p_code p = Some 410) /\ p_end p = CURLE_OK) ->
  wp (store_http_get_chunk E hs id out) (fun x w' => let '(r, _, hs') := x in r = Some 0 /\ same_store hs hs' /\ hs_dec_cap hs' = hs_dec_cap hs) nobad w.
Proof.
  intros (Hu & Hcap) Lid Ha Hj Hf (Hcode & Hend). pose proof (chunk_url_length hs id Lid) as Lu. unfold store_http_get_chunk, set_url. apply wp_bind.
  replace (hs_url_cap hs <? blen (chunk_url hs id) + 1) with false by lia.
  apply wp_bind, wp_alloc_allocs. intros a w1 A1 Ha1. specialize (Ha1 Ha). subst a. apply allocs_none in A1; [|exact Ha]. subst w1. apply wp_ret.
  apply wp_bind. apply wp_mono with (Q := fun a w' => w' = w /\ a = true) (R := nobad); [| |intros ? ? []].
  { destruct (hs_key hs); [|apply wp_ret; auto]. apply wp_alloc_allocs. intros a w1 A1 Ha1. split; [now apply allocs_none in A1|auto]. }
  intros a w1 [-> ->]. cbn [negb]. apply wp_bind. fold (fresh_req hs id out). set (url := chunk_url hs id) in *. set (p := e_server E url (w_nperf w + j)) in *.
  assert (Hnc : p_code p <> Some 200) by (destruct Hcode; congruence).
  destruct (deliver_missing E (p_code p) (p_end p) Hnc (p_segs p) (fresh_req hs id out) w) as (c & r2 & D1 & D2 & D3); [discriminate|now left|].
  assert (Hperf : forall w', later w w' j -> curl_easy_perform E url (fresh_req hs id out) w' = (Ok (c, p_code p, r2), after_perform url w')).
  { intros w' (L1 & L2 & L3 & L4 & L5 & L6). unfold curl_easy_perform. rewrite L6. fold p. unfold bind.
    assert (Ha' : w_alloc (after_perform url w') = []) by (cbn; congruence).
    replace (add_trace (TPerform url) (set_nperf (S (w_nperf w + j)) w')) with (after_perform url w') by (unfold after_perform; now rewrite L6).
    destruct (deliver_missing E (p_code p) (p_end p) Hnc (p_segs p) (fresh_req hs id out) (after_perform url w')) as (c3 & r3 & F1 & _ & _); [discriminate|now left|].
    assert (G : forall segs r wa wb, w_alloc wa = [] -> w_alloc wb = [] -> fst (curl_deliver E (p_code p) segs (p_end p) r wa) = fst (curl_deliver E (p_code p) segs (p_end p) r wb)).
    { clear. intros segs. induction segs as [|s segs IH]; intros r wa wb Ha Hb; cbn [curl_deliver]; [reflexivity|]. unfold bind. rewrite (cb_world E (p_code p) s r wa Ha), (cb_world E (p_code p) s r wb Hb).
      destruct (fst (store_http_data_cb E (p_code p) s r w_null)) as [[n r1]| | |]; auto. destruct (n =? blen s); auto. }
    specialize (G (p_segs p) (fresh_req hs id out) w (after_perform url w') Ha Ha'). rewrite D1, F1 in G. cbn [fst] in G. injection G as <- <-. rewrite F1. reflexivity. }
  assert (Ht : ~ transient c) by (rewrite Hend in D2; unfold transient; destruct D2 as [-> | ->]; intros [X|[X|X]]; discriminate).
  destruct (retried_settles E url j CONNECT_TRIES 200000 (fresh_req hs id out) w c (p_code p) r2) as (w2 & E2 & L2); auto.
  unfold wp at 1. rewrite E2. apply is_transient_false in Ht. rewrite Ht. rewrite Hend in D2.
  assert (R : wp (ret (Some 0, rq_out r2, hs_after hs r2 (hs_err hs))) (fun x w' => let '(r, _, hs') := x in r = Some 0 /\ same_store hs hs' /\ hs_dec_cap hs' = hs_dec_cap hs) nobad w2).
  { apply wp_ret. split; [reflexivity|]. split; [repeat split|]. cbn. rewrite D3. reflexivity. }
  destruct D2 as [-> | ->]; destruct Hcode as [-> | ->]; exact R.
Qed.

(** The world of a request: nothing but the target was changed since [w0], no transfer and no allocation fails. *)
Definition fair (w0 : world) (tino : nat) (w : world) : Prop :=
  (forall j, j <> tino -> w_files w j = w_files w0 j) /\ error_free (w_io w) /\ w_alloc w = [] /\ kc_clean w.
Lemma fair_quiet (S0 : nat -> Prop) (P : tev -> Prop) w0 tino w w' : (forall j, S0 j -> j = tino) -> quiet S0 P w w' -> fair w0 tino w -> fair w0 tino w'.
Proof.
  intros HS (A & B & C & D & _) (F & G & K & L). split; [|split; [eapply error_free_suffix; eauto|split; [|auto]]].
  - intros j Hj. rewrite A; [apply F, Hj|]. intros X. apply Hj, HS, X.
  - rewrite K in C. destruct (w_alloc w') as [|x al]; [reflexivity|]. destruct (C x). now left.
Qed.

Section Avail.
Variables (E : env) (pieces : list bytes) (sim : Prop).
Hypothesis (HE : env_ok E) (Hsv : server_ok E).
Hypothesis (Hlen : forall P, In P pieces -> 0 < blen P <= BUF_SIZE).
(** The stores [J] are relied on: [fit j] is kept by every request to store [j], which is answered, and
    answered with data if the store supplies the chunk ([sup]). *)
Variables (w0 : world) (tino : nat) (J : nat -> Prop) (fit : nat -> store -> Prop) (sup : nat -> bytes -> Prop).
(** Only the chunks [asked] are requested, and a request takes at most [per] transfers. *)
Variables (asked : bytes -> Prop) (per : N).
Hypothesis (HB : BUF_SIZE <= per).
Definition spent (k : N) (w w' : world) : Prop := sim -> used k w w'.
Definition broke (k : N) (w : world) : Prop := sim -> w_kcapi w = false -> (transfers (w_io w) < N.to_nat k)%nat.
Hypothesis (Hfit : forall j s t P out w, J j -> fit j s -> In P pieces -> asked P -> t_ino t = tino -> fair w0 tino w -> blen out = BUF_SIZE -> store_ok E true w t s ->
  wp (store_get_chunk E s t (e_H E P) out) (fun x w' => let '(r, _, s', _) := x in fit j s' /\ (exists m, r = Some m /\ (sup j P -> 0 < m)) /\ spent per w w') (fun _ w' => broke per w) w).
Definition relied (j : nat) (s : store) : Prop := J j /\ fit j s.
Definition found (i : nat) (l : list substore) : Prop := forall j, J j -> (i <= j)%nat -> exists s, nth_error l (j - i) = Some (mkSub s true) /\ fit j s.
Definition lean (i : nat) (l : list substore) : Prop := forall k ss, nth_error l k = Some ss -> simple_store (ss_store ss) \/ relied (i + k) (ss_store ss).
Lemma found_tail i ss l : found i (ss :: l) -> found (S i) l.
Proof. intros H j Hj Hi. destruct (H j Hj ltac:(lia)) as (s & A & B). exists s. split; [|exact B]. replace (j - i)%nat with (S (j - S i)) in A by lia. exact A. Qed.
Lemma found_head i ss l : found i (ss :: l) -> J i -> exists s, ss = mkSub s true /\ fit i s.
Proof. intros H Hj. destruct (H i Hj (le_n i)) as (s & A & B). rewrite Nat.sub_diag in A. injection A as ->. eauto. Qed.
Lemma found_cons i ss l : (J i -> exists s, ss = mkSub s true /\ fit i s) -> found (S i) l -> found i (ss :: l).
Proof.
  intros A B j Hj Hi. destruct (Nat.eq_dec j i) as [->|Hne].
  - destruct (A Hj) as (s & -> & F). exists s. rewrite Nat.sub_diag. auto.
  - destruct (B j Hj ltac:(lia)) as (s & C & D). exists s. replace (j - i)%nat with (S (j - S i)) by lia. auto.
Qed.
Lemma lean_head i ss l : lean i (ss :: l) -> simple_store (ss_store ss) \/ relied i (ss_store ss).
Proof. intros H. specialize (H 0%nat ss eq_refl). now rewrite Nat.add_0_r in H. Qed.
Lemma lean_tail i ss l : lean i (ss :: l) -> lean (S i) l.
Proof. intros H k s Hk. specialize (H (S k) s Hk). now replace (i + S k)%nat with (S i + k)%nat in H by lia. Qed.
Lemma lean_cons i ss l : simple_store (ss_store ss) \/ relied i (ss_store ss) -> lean (S i) l -> lean i (ss :: l).
Proof. intros A B [|k] s Hk; [injection Hk as <-; now rewrite Nat.add_0_r|]. replace (i + S k)%nat with (S i + k)%nat by lia. now apply B. Qed.
Lemma lean_nil i : lean i [].
Proof. intros [|k] s Hk; discriminate. Qed.
Definition tlen (g : bytes) (t : target) : Prop :=
  t_queryable t = true -> idx_ok (t_idx t) /\
  forall e, In e (entries t) -> 0 < en_len e <= BUF_SIZE /\ en_start e < OFF_LIMIT /\ en_start e + en_len e <= blen g /\
    exists P, In P pieces /\ en_id e = e_H E P /\ en_len e = blen P.

Lemma tlen_same g t t' : same_target t t' -> (t_queryable t = true -> idx_ok (t_idx t')) -> tlen g t -> tlen g t'.
Proof. intros (A & B & P) Hx H Hq. rewrite B in Hq. destruct (H Hq) as (H1 & H2). split; [auto|]. intros e He. apply H2. eapply Permutation_in; [symmetry; exact P|exact He]. Qed.

Lemma wp_target_a t id out w : tlen (w_files w (t_ino t)) t -> blen out = BUF_SIZE -> error_free (w_io w) ->
  wp (target_get_chunk E t id out) (fun x w' => let '(r, out', t') := x in
       quiet0 w w' /\ length out' = length out /\ same_target t t' /\ (t_queryable t = true -> idx_ok (t_idx t')) /\ used BUF_SIZE w w' /\
       exists n, r = Some n /\ (0 < n -> exists y, blen y = n /\ e_H E y = id)) (fun _ w' => (transfers (w_io w) < N.to_nat BUF_SIZE)%nat) w.
Proof.
  destruct HE as (HH & Hq & Hb & Hz). intros Ht Hl He. unfold target_get_chunk. destruct (t_queryable t) eqn:Et; cbn [negb].
  2:{ apply wp_ret. split; [apply quiet0_refl|]. split; [reflexivity|]. split; [apply same_target_refl|]. split; [discriminate|]. split; [apply (used_more 0); [lia|apply used_refl]|]. exists 0. split; [reflexivity|lia]. }
  destruct (Ht Et) as (Hx & Hin). apply wp_bind, wp_index_query; auto.
  - intros pos x' e Hx' P N1 N2. apply wp_bind. eapply wp_index_get; [exact N1|].
    assert (ST : same_target t (t_set_idx t x')) by (split; [reflexivity|]; split; [reflexivity|exact P]).
    assert (Ie : In e (entries t)) by (eapply Permutation_in; [symmetry; exact P|eapply nth_error_In; eauto]).
    destruct (Hin _ Ie) as (G1 & G2 & G3 & X & G4 & G5 & G6). replace (blen out <? en_len e) with false by lia.
    apply wp_bind, wp_pread_cost; cbn [t_ino t_set_idx].
    + intros ev Hs _ _ Hd Hc. cbn [negb]. apply wp_ret. split; [apply quiet0_io, Hs|]. split; [apply length_overlay; unfold blen in *; lia|]. split; [exact ST|]. split; [intros _; exact Hx'|].
      split; [apply (used_more (en_len e)); [lia|]; split; auto|]. exists (en_len e). split; [reflexivity|]. intros _. exists X. split; congruence.
    + intros ev n Hs Hn Hln Hr _. exfalso. destruct Hr as [Hr|[Hr|Hr]]; [contradiction|lia|lia].
    + intros Hc. lia.
  - intros x' Hx' P Hno. apply wp_ret. split; [apply quiet0_refl|]. split; [reflexivity|]. split; [split; [reflexivity|split; [reflexivity|exact P]]|]. split; [intros _; exact Hx'|].
    split; [apply (used_more 0); [lia|apply used_refl]|]. exists 0. split; [reflexivity|lia].
Qed.

Lemma wp_store_a j P s t out w : In P pieces -> asked P -> let id := e_H E P in tlen (w_files w (t_ino t)) t -> blen out = BUF_SIZE -> t_ino t = tino -> fair w0 tino w ->
  store_ok E true w t s -> (sim -> simple_store s \/ relied j s) ->
  wp (store_get_chunk E s t id out) (fun x w' => let '(r, out', s', t') := x in
       quiet0 w w' /\ length out' = length out /\ (r <> None -> store_ok E true w' t' s') /\ same_target t t' /\ (t_queryable t = true -> idx_ok (t_idx t')) /\
       (forall n, r = Some n -> 0 < n -> exists y, blen y = n /\ e_H E y = id) /\
       (relied j s -> fit j s' /\ exists m, r = Some m /\ (sup j P -> 0 < m)) /\
       spent per w w' /\ (sim -> simple_store s' \/ relied j s'))
     (fun _ w' => broke per w) w.
Proof.
  intros HP Has id Ht Hl Hti Hfair Hs Hsim. pose proof HE as (HH & Hq & Hb & Hz). pose proof Hfair as (_ & He & Ha & Hc). assert (Hm : hash_mode true w) by (intros _; exact Hc).
  assert (Lid : length id = 32%nat) by apply HH. assert (Bid : bytes_ok id) by apply HH.
  assert (Hx : t_queryable t = true -> idx_ok (t_idx t)) by (intros X; apply Ht, X).
  assert (Auth : forall r out', authentic E true (id, out) (r, out') -> forall n, r = Some n -> 0 < n -> exists y, blen y = n /\ e_H E y = id).
  { intros r out' (A1 & A2) n -> Hn. cbn [fst snd] in *. destruct (A2 Hn) as (B1 & B2). exists (firstn (N.to_nat n) out'). split; [|exact B2].
    unfold blen in *. rewrite firstn_length. lia. }
  assert (G1 : wp (store_get_chunk E s t id out) (fun x w' => let '(r, out', s', t') := x in
       quiet0 w w' /\ length out' = length out /\ (r <> None -> store_ok E true w' t' s') /\ same_target t t' /\ (t_queryable t = true -> idx_ok (t_idx t')) /\
       (forall n, r = Some n -> 0 < n -> exists y, blen y = n /\ e_H E y = id) /\ (simple_store s -> spent BUF_SIZE w w' /\ simple_store s'))
     (fun _ w' => simple_store s -> broke BUF_SIZE w) w).
  { unfold store_get_chunk. destruct s as [ls|hs|]; apply wp_bind.
    - cbn in Hs. destruct Hs as (A & (D & HD) & Hmax & Hln & Hls).
      assert (Lg : wp (store_local_get_chunk E ls id out) (fun x w' => let '(r, out', ls') := x in quiet0 w w' /\ authentic E true (id, out) (r, out') /\ ls_ino ls' = ls_ino ls /\ ls_params ls' = ls_params ls /\
           (r <> None -> ls_ok E true (w_files w (ls_ino ls)) ls')) (fun _ _ => True) w).
      { apply wp_local_get with (b := true) (D := D); auto. intros [[r out'] ls'] tr w' Q Htr G. apply got_authentic in G as (G1 & G2 & G3 & G4). auto. }
      eapply wp_mono; [apply (wp_conj2 _ _ _ _ _ _ _ (wp_imp _ (simple_store (SLocal ls)) _ _ _ w (fun S0 => wp_local_simple E ls id out w Hq Hb (proj1 S0) (proj2 S0))) Lg)|..].
      + intros [[r out'] ls'] w' (S1 & Q & G1 & G2 & G3 & G4). apply wp_ret. split; [exact Q|]. split; [apply G1|]. split.
        { intros Hr. cbn. rewrite G2, G3, (quiet0_files _ _ Q). split; [exact A|]. split; [eauto|]. split; [exact Hmax|]. split; [exact Hln|auto]. }
        split; [apply same_target_refl|]. split; [exact Hx|]. split; [eapply Auth; eauto|]. intros S0. specialize (S1 S0). rewrite <- Hl. split; [intros _; apply S1|apply S1].
      + intros bd w' (S1 & _) S0 _ _. specialize (S1 S0). cbv beta in S1. unfold blen in Hl. lia.
    - apply (wp_frame none store_ev); [apply frame_http_get; intros; exact I|].
      eapply wp_mono; [apply (keeps_wp _ _ w (keeps_http E hs id out) _ _ (wp_http_get E true hs id out w Hz Hsv Hs Lid Hm))|..].
      + intros [[r out'] hs'] w' ((A & B & C & _) & U) Q. apply wp_ret. split; [exact Q|]. split; [apply A|]. split; [intros _; exact B|]. split; [apply same_target_refl|].
        split; [exact Hx|]. split; [eapply Auth; eauto|]. intros _. split; [intros _; apply (used_more 0); [lia|exact U]|exact I].
      + intros bd w' ((_ & K) & (_ & U)) _ _ _ K0. specialize (U K0). congruence.
    - eapply wp_mono; [apply (wp_target_a t id out w Ht Hl He)|..].
      + intros [[r out'] t'] w' (A & B & C & D & F & n & G1 & G2). apply wp_ret. split; [exact A|]. split; [exact B|]. split; [intros _; exact I|]. split; [exact C|]. split; [exact D|].
        split; [intros m Hm0; rewrite G1 in Hm0; injection Hm0 as <-; exact G2|]. intros _. split; [intros _; exact F|exact I].
      + intros bd w' T _ S0 _. exact T. }
  assert (G2 : wp (store_get_chunk E s t id out) (fun x w' => relied j s -> let '(r, _, s', _) := x in fit j s' /\ (exists m, r = Some m /\ (sup j P -> 0 < m)) /\ spent per w w') (fun _ w' => relied j s -> broke per w) w).
  { apply (wp_imp _ (relied j s)). intros (R1 & R2). now apply Hfit. }
  eapply wp_mono; [apply (wp_conj2 _ _ _ _ _ _ _ G1 G2)|..].
  - intros [[[r out'] s'] t'] w' ((A & B & C & D & F & G & K) & L). split; [exact A|]. split; [exact B|]. split; [exact C|]. split; [exact D|]. split; [exact F|]. split; [exact G|].
    split. { intros R. destruct (L R) as (L1 & L2 & _). auto. }
    split.
    + intros S0. destruct (Hsim S0) as [X|X]; [apply (used_more BUF_SIZE per _ _ HB), (K X), S0|apply (L X), S0].
    + intros S0. destruct (Hsim S0) as [X|X]; [left; apply (K X)|right]. split; [apply X|apply (L X)].
  - intros bd w' (K & L) S0. destruct (Hsim S0) as [X|X]; [intros K0; specialize (K X S0 K0); lia|apply (L X), S0].
Qed.

(** ** The chain *)
Definition false_since (w w' : world) : Prop := exists tr, w_trace w' = tr ++ w_trace w /\ false_answer E pieces tr.
Lemma false_more a tr c : false_answer E pieces tr -> false_answer E pieces (a ++ tr ++ c).
Proof.
  intros (P & y & i & A & B & C & x & z & v & -> & D). exists P, y, i. split; [exact A|]. split; [exact B|]. split; [exact C|]. exists (a ++ x), z, (v ++ c). split; [|exact D].
  now rewrite <- !app_assoc, <- !app_comm_cons, <- !app_assoc, <- app_comm_cons.
Qed.
Lemma false_before w w1 w2 (S0 : nat -> Prop) (P : tev -> Prop) : quiet S0 P w w1 -> false_since w1 w2 -> false_since w w2.
Proof. intros (_ & _ & _ & _ & tr & A & _) (tr2 & B & C). exists (tr2 ++ tr). split; [now rewrite B, A, app_assoc|]. apply (false_more [] tr2 tr C). Qed.
Lemma false_after w w1 w2 (S0 : nat -> Prop) (P : tev -> Prop) : quiet S0 P w1 w2 -> false_since w w1 -> false_since w w2.
Proof. intros (_ & _ & _ & _ & tr & A & _) (tr2 & B & C). exists (tr ++ tr2). split; [now rewrite A, B, app_assoc|]. rewrite <- (app_nil_r tr2). apply (false_more tr tr2 [] C). Qed.

Definition cost (l : list substore) : N := N.of_nat (length l) * per.

Lemma chain_a P : In P pieces -> asked P -> let id := e_H E P in forall l i t out w,
  tlen (w_files w (t_ino t)) t -> blen out = BUF_SIZE -> t_ino t = tino -> fair w0 tino w -> Forall (sub_ok E true w t) l -> (sim -> lean i l) -> found i l ->
  wp (chain_loop E i l t id out) (fun x w' => let '(r, out', l', t') := x in
       quiet none (chain_ev id) w w' /\ length out' = length out /\ Forall (sub_ok E true w' t') l' /\ same_target t t' /\ (t_queryable t = true -> idx_ok (t_idx t')) /\
       (sim -> lean i l') /\ length l' = length l /\ found i l' /\ spent (cost l) w w' /\
       (forall n, r = Some n -> 0 < n -> n = blen P \/ false_since w w') /\ ((exists j, J j /\ (i <= j)%nat /\ sup j P) -> exists n, r = Some n /\ 0 < n))
     (fun _ _ => broke (cost l) w) w.
Proof.
  intros HP Has id. induction l as [|ss l IH]; intros i t out w Ht Hl Hti Hfair Hok Hsim Hfound; cbn [chain_loop].
  - apply wp_ret. split; [apply quiet_refl|]. split; [reflexivity|]. split; [constructor|]. split; [apply same_target_refl|]. split; [intros X; apply Ht, X|]. split; [intros _; apply lean_nil|].
    split; [reflexivity|]. split; [exact Hfound|]. split; [intros _; apply used_refl|]. split; [intros n Hn; injection Hn as <-; lia|]. intros (j & J1 & J2 & _). destruct (Hfound j J1 J2) as (s & X & _). destruct (j - i)%nat; discriminate.
  - pose proof (Forall_inv Hok) as H1. pose proof (Forall_inv_tail Hok) as H2.
    assert (Hsim1 : sim -> simple_store (ss_store ss) \/ relied i (ss_store ss)) by (intros S0; apply (lean_head i ss l), Hsim, S0).
    assert (Hsim2 : sim -> lean (S i) l) by (intros S0; apply (lean_tail i ss l), Hsim, S0).
    pose proof (found_tail i ss l Hfound) as Hf2. pose proof (found_head i ss l Hfound) as Hf1.
    assert (Ec : cost (ss :: l) = per + cost l) by (unfold cost; cbn [length]; lia).
    destruct (ss_active ss) eqn:Ea; cbn [negb].
    2:{ assert (NJ : ~ J i) by (intros X; destruct (Hf1 X) as (s & -> & _); discriminate).
        apply wp_bind. eapply wp_mono; [apply (IH (S i) t out w); auto|..].
        - intros [[[r out'] l'] t'] w' (A & B & C & D & F & G & L & Fo & U & An & Re). apply wp_ret. split; [exact A|]. split; [exact B|].
          split; [constructor; [intros X; congruence|exact C]|]. split; [exact D|]. split; [exact F|]. split; [intros S0; apply lean_cons; auto|]. split; [cbn [length]; now rewrite L|].
          split; [apply found_cons; [contradiction|exact Fo]|].
          split; [intros S0; eapply used_more; [|apply U, S0]; lia|]. split; [exact An|].
          intros (j & J1 & J2 & J3). apply Re. exists j. split; [exact J1|]. split; [|exact J3]. destruct (Nat.eq_dec j i) as [->|]; [contradiction|lia].
        - intros bd w' Bk S0 K. specialize (Bk S0 K). lia. }
    apply wp_bind, wp_trace, wp_bind. set (w1 := add_trace _ w).
    assert (Q1 : quiet none (chain_ev id) w w1) by (apply (frame_trace none (chain_ev id) (TQuery i id) eq_refl w)).
    assert (NN : forall j, none j -> j = tino) by (intros j []).
    eapply wp_mono; [apply (wp_store_a i P (ss_store ss) t out w1); auto|..].
    2:{ intros bd w' Bk S0 K. specialize (Bk S0 K). change (w_io w1) with (w_io w) in Bk. lia. }
    intros [[[r out'] s'] t'] w0' (Q & Lo & So & ST & Hx & Au & Fa & U & Si). apply wp_bind, wp_trace. set (w' := add_trace _ w0').
    assert (F : forall j, w_files w' j = w_files w j) by (intros j; apply (quiet0_files _ _ Q)).
    assert (Qw : quiet none (chain_ev id) w w').
    { eapply quiet_trans; [exact Q1|]. eapply quiet_trans; [apply quiet0_chain; exact Q|]. apply (frame_trace none (chain_ev id) (TAnswer i r) Logic.I w0'). }
    change (r <> None -> store_ok E true w' t' s') in So. assert (Hino : t_ino t' = t_ino t) by apply ST.
    assert (Uw : spent per w w') by exact U.
    assert (Fair' : fair w0 tino w') by (eapply fair_quiet; [exact NN|exact Qw|exact Hfair]).
    assert (Hd : J i -> fit i s' /\ exists m, r = Some m /\ (sup i P -> 0 < m)).
    { intros Ji. apply Fa. split; [exact Ji|]. destruct (Hf1 Ji) as (s & -> & X). exact X. }
    (* continuing with the next store *)
    assert (Cont : forall a, (a = true -> store_ok E true w' t' s') -> (J i -> a = true) -> (J i -> sup i P -> False) ->
       wp (bind (chain_loop E (S i) l t' id out') (fun '(r, out, l', t) => ret (r, out, mkSub s' a :: l', t)))
         (fun x w2 => let '(r, out2, l', t2) := x in
           quiet none (chain_ev id) w w2 /\ length out2 = length out /\ Forall (sub_ok E true w2 t2) l' /\ same_target t t2 /\ (t_queryable t = true -> idx_ok (t_idx t2)) /\
           (sim -> lean i l') /\ length l' = length (ss :: l) /\ found i l' /\ spent (cost (ss :: l)) w w2 /\
           (forall n, r = Some n -> 0 < n -> n = blen P \/ false_since w w2) /\ ((exists j, J j /\ (i <= j)%nat /\ sup j P) -> exists n, r = Some n /\ 0 < n))
         (fun _ _ => broke (cost (ss :: l)) w) w').
    { intros a Haa Hja Hnf. apply wp_bind. eapply wp_mono; [apply (IH (S i) t' out' w')|..]; auto.
      - rewrite F, Hino. eapply tlen_same; eauto.
      - unfold blen in *. now rewrite Lo.
      - congruence.
      - eapply subs_ok_stable; [| |exact H2]; auto.
      - intros [[[r2 out2] l2] t2] w2 (A & B & C & D & G & Si2 & L & Fo & U2 & An & Re). apply wp_ret. split; [eapply quiet_trans; eauto|]. split; [congruence|].
        split. { constructor; [|exact C]. intros Ha'. cbn in Ha'. eapply store_ok_stable; [| |apply Haa, Ha'].
          - intros j _. destruct A as (A & _). apply A. exact (fun x => x).
          - apply D. }
        assert (ST2 := ST). destruct ST2 as (_ & Sq & _).
        split; [eapply same_target_trans; eauto|]. split; [intros X; apply G; congruence|]. split; [intros S0; apply lean_cons; cbn; auto|]. split; [cbn [length]; now rewrite L|]. split.
        { apply found_cons; [|exact Fo]. intros Ji. exists s'. rewrite (Hja Ji). split; [reflexivity|apply (Hd Ji)]. }
        split; [intros S0; rewrite Ec; eapply used_trans; eauto|]. split.
        { intros n Hn H0. destruct (An n Hn H0) as [X|X]; [now left|right]. eapply false_before; eauto. }
        intros (j & J1 & J2 & J3). apply Re. exists j. split; [exact J1|]. split; [|exact J3]. destruct (Nat.eq_dec j i) as [->|]; [destruct (Hnf J1 J3)|lia].
      - intros bd w2 Bk S0 K. destruct (Uw S0) as (U1 & U2). specialize (Bk S0 (U2 K)). lia. }
    pose proof (Hlen P HP) as LP.
    destruct r as [n|]; [destruct (0 <? n) eqn:En|].
    + apply wp_ret. split; [exact Qw|]. split; [exact Lo|]. split.
      { constructor; [intros _; apply So; discriminate|]. eapply subs_ok_stable; [| |exact H2]; auto. }
      split; [exact ST|]. split; [exact Hx|]. split; [intros S0; apply lean_cons; cbn; auto|]. split; [reflexivity|]. split.
      { apply found_cons; [|exact Hf2]. intros Ji. exists s'. split; [reflexivity|apply (Hd Ji)]. }
      split; [intros S0; eapply used_more; [|apply Uw, S0]; lia|]. split; [|intros _; exists n; split; [reflexivity|lia]].
      intros m Hm Hm0. injection Hm as <-. destruct (N.eq_dec n (blen P)) as [X|X]; [now left|right]. destruct (Au n eq_refl Hm0) as (y & Y1 & Y2).
      destruct Q as (_ & _ & _ & _ & tr & T1 & T2). exists (TAnswer i (Some n) :: tr ++ [TQuery i id]). split.
      { unfold w'. cbn [w_trace add_trace app]. rewrite T1. unfold w1. cbn [w_trace add_trace]. now rewrite <- app_assoc. }
      exists P, y, i. split; [exact HP|]. split; [exact Y2|]. split; [congruence|]. exists [], tr, []. rewrite Y1. split; [reflexivity|].
      eapply Forall_impl; [|exact T2]. exact store_quiet.
    + apply Cont; [intros _; apply So; discriminate|reflexivity|]. intros Ji X. destruct (Hd Ji) as (_ & m & Z & Z2). injection Z as <-. specialize (Z2 X). lia.
    + apply Cont; [discriminate|..].
      * intros Ji. destruct (Hd Ji) as (_ & m & Z & _). discriminate.
      * intros Ji. destruct (Hd Ji) as (_ & m & Z & _). discriminate.
Qed.

(** ** The entries *)
Variables (ns : nat) (bound total : N).
Hypothesis (Hbound : 60 * (bound + 1) < 2 ^ 64) (Hroom : has_room E w0 tino total).
Definition percost : N := 40 + (N.of_nat ns + 2) * per.
Record AInv (i : N) (st : mstate) (w : world) : Prop := mkAInv {
  ai_files : forall j, j <> tino -> w_files w j = w_files w0 j;
  ai_io : error_free (w_io w);
  ai_alloc : w_alloc w = [];
  ai_kc : kc_clean w;
  ai_ino : t_ino (m_target st) = tino;
  ai_tgt : tlen (w_files w tino) (m_target st);
  ai_size : t_queryable (m_target st) = true -> n_entries (t_idx (m_target st)) <= i;
  ai_chain : exists l, m_store st = Some l /\ Forall (sub_ok E true w (m_target st)) l /\ found 0 l /\ length l = ns /\ (sim -> lean 0 l);
  ai_buf : blen (m_buf st) = BUF_SIZE;
  ai_grow : blen (w_files w0 tino) <= blen (w_files w tino);
  ai_trace : exists tr, w_trace w = tr ++ w_trace w0;
  ai_cold : sim -> w_kcapi w = false }.
Definition paid (k : N) (w : world) : Prop := sim -> (transfers (w_io w0) <= transfers (w_io w) + N.to_nat k)%nat.
Definition stops (k : N) : Prop := sim -> (transfers (w_io w0) < N.to_nat k)%nat.

Lemma room w off len : blen (w_files w0 tino) <= blen (w_files w tino) -> off + len <= total -> can_hold (e_kind E tino) (w_files w tino) off len.
Proof. intros H Ho. destruct Hroom as (A & B). split; [lia|]. destruct (e_kind E tino); auto; lia. Qed.

Lemma AInv_handled i st w h : AInv i st w -> AInv i (mkM (m_store st) (m_target st) (m_last_id st) (m_resuming st) (m_buf st) (m_skipped st) h) w.
Proof. intros []. constructor; auto. Qed.
Lemma wp_progress_a m i st w (R : bad -> world -> Prop) : AInv i st w -> wp (entry_progress E m st) (fun r w' => fst r = true /\ AInv i (snd r) w' /\ w_io w' = w_io w) R w.
Proof.
  intros HU. unfold entry_progress. destruct (e_interactive E); [|apply wp_ret; auto]. cbv zeta. apply wp_bind, wp_trace, wp_ret. split; [reflexivity|]. split; [|reflexivity].
  apply AInv_handled. destruct HU. constructor; auto. destruct ai_trace0 as (tr & X). eexists (_ :: tr). cbn [w_trace add_trace app]. now rewrite X.
Qed.

(** The state after a chunk was added. *)
Lemma wp_progress_r m st w : wp (entry_progress E m st) (fun r w' => m_resuming (snd r) = m_resuming st /\ w_files w' = w_files w) (fun _ _ => True) w.
Proof. unfold entry_progress. destruct (e_interactive E); [apply wp_bind, wp_trace|]; apply wp_ret; auto. Qed.
Lemma AInv_added i st w st' w' (PP : tev -> Prop) off P : quiet (eq tino) PP w w' -> i < bound -> AInv i st w -> In P pieces -> off < OFF_LIMIT ->
  blen (m_buf st') = BUF_SIZE -> m_store st' = m_store st -> (sim -> w_kcapi w = false -> w_kcapi w' = false) ->
  added off (blen P) (e_H E P) (In false (w_alloc w)) (m_target st) (m_target st') -> off + blen P <= blen (w_files w' tino) ->
  blen (w_files w tino) <= blen (w_files w' tino) -> AInv (i + 1) st' w'.
Proof.
  intros Q Hi [Hf He Ha Hc Hino Ht Hn (l & L1 & L2 & L3 & L4 & L5) Hb Hgr (tr0 & Htr) Hco] HP Hoff Hb' Hs Hco' (A1 & A2 & A3) Hend Hg.
  pose proof Q as (Q1 & Q2 & Q3 & Q4 & tr1 & Q5 & _). constructor.
  - intros j Hj. rewrite Q1 by congruence. auto.
  - eapply error_free_suffix; eauto.
  - rewrite Ha in Q3. destruct (w_alloc w') as [|x al]; [reflexivity|]. destruct (Q3 x). now left.
  - auto.
  - congruence.
  - intros Hq. rewrite A2 in Hq. rewrite Hq in A3. destruct (Ht Hq) as (T1 & T2). destruct A3 as (B1 & _ & B3 & _ & _). split; [exact B1|]. intros e Hin. destruct (B3 e Hin) as [Hold|(-> & Hl)].
    + destruct (T2 _ Hold) as (X1 & X2 & X3 & X4). split; [exact X1|]. split; [exact X2|]. split; [lia|exact X4].
    + cbn. pose proof (Hlen P HP). split; [lia|]. split; [exact Hoff|]. split; [exact Hend|]. exists P. auto.
  - intros Hq. rewrite A2 in Hq. rewrite Hq in A3. destruct A3 as (_ & _ & _ & _ & B5). specialize (Hn Hq). lia.
  - exists l. split; [congruence|]. split; [|auto]. eapply subs_ok_stable; [| |exact L2]; [|congruence]. intros j Hj. apply Q1. congruence.
  - exact Hb'.
  - lia.
  - exists (tr1 ++ tr0). now rewrite Q5, Htr, app_assoc.
  - auto.
Qed.

Definition Failed (w : world) : Prop := false_since w0 w.

(** target_write and what follows *)
Lemma wp_write_a m i st w off P : i < bound -> In P pieces -> AInv i st w -> off + blen P <= total ->
  wp (bind (target_write E (m_target st) (m_buf st) (blen P) off (e_H E P)) (fun '(ok, t) =>
        let st := m_set st (m_store st) t (m_last_id st) (m_resuming st) (m_buf st) in
        if negb (ok : bool) then ret (false, st) else entry_progress E m st))
     (fun r w' => fst r = true /\ AInv (i + 1) (snd r) w' /\ spent BUF_SIZE w w') (fun _ _ => broke BUF_SIZE w) w.
Proof.
  intros Hi HP HI Ho. pose proof HE as (HH & Hq & Hbs & Hz). pose proof (Hlen P HP) as LP. pose proof HI as [Hf He Ha Hc Hino Ht Hn Hch Hb Hgr Htr Hco].
  assert (CH := room w off (blen P) Hgr Ho). apply wp_bind. apply wp_target_write; auto; rewrite ?Hino.
  - intros X. split; [apply Ht, X|]. specialize (Hn X). change (2 ^ 64) with 18446744073709551616 in *. lia.
  - lia.
  - set (D := firstn (N.to_nat (blen P)) (m_buf st)). intros t' w' Hw Hu Had. cbn [negb].
    assert (LD : length D = N.to_nat (blen P)) by (unfold D; rewrite firstn_length; unfold blen in *; lia).
    pose proof Hw as (_ & W2 & W3 & _ & QW). rewrite firstn_all in W2.
    assert (Lw : off + blen P <= blen (w_files w' tino) /\ blen (w_files w tino) <= blen (w_files w' tino)).
    { rewrite W2. unfold fw. destruct D as [|x D'] eqn:ED; [cbn in LD; lia|]. unfold blen at 2 4. rewrite length_file_write, LD. unfold blen. lia. }
    eapply wp_mono; [apply (wp_progress_a m (i + 1) (m_set st (m_store st) t' (m_last_id st) (m_resuming st) (m_buf st)) w' (fun _ _ => broke BUF_SIZE w))|..]; auto.
    + eapply (AInv_added i st w _ w' _ off P QW); auto; try apply Lw.
      * apply W3. lia.
      * intros _. apply Hu.
    + intros [ok st'] w2 (X & Y & Z). cbn [fst snd] in *. split; [exact X|]. split; [exact Y|]. intros S0. destruct (used_more (blen P) BUF_SIZE w w' ltac:(lia) Hu) as (U1 & U2). split.
      * now rewrite Z.
      * intros K. destruct Y as [_ _ _ _ _ _ _ _ _ _ _ Co]. auto.
  - intros n w' _ No. elim No. split; [exact He|exact CH].
  - intros bd n w' Hw _ Hh. intros S0 K. destruct (Hh He CH ltac:(lia)) as (_ & X). lia.
Qed.

Lemma wp_fetch_a m i st w off P : i < bound -> In P pieces -> asked P -> (exists j, J j /\ sup j P) -> AInv i st w -> off + blen P <= total ->
  wp (entry_fetch_write E m off (blen P) (e_H E P) st)
     (fun r w' => if fst r then AInv (i + 1) (snd r) w' /\ spent ((N.of_nat ns + 1) * per) w w' else Failed w') (fun _ _ => broke ((N.of_nat ns + 1) * per) w) w.
Proof.
  intros Hi HP Has Hsup HI Ho. unfold entry_fetch_write. pose proof HI as [Hf He Ha Hc Hino Ht Hn (l & L1 & L2 & L3 & L4 & L5) Hb Hgr Htr Hco].
  destruct (match m_last_id st with Some _ => _ | None => false end) eqn:El.
  - apply wp_bind, wp_ret. cbn [negb]. eapply wp_mono; [apply (wp_write_a m i st w off P); auto|..].
    + intros [ok st'] w' (X & Y & Z). cbn [fst snd] in *. rewrite X. split; [exact Y|]. intros S0. eapply used_more; [|apply Z, S0]. lia.
    + intros bd w' Bk S0 K. specialize (Bk S0 K). lia.
  - rewrite L1. apply wp_bind, wp_bind. unfold store_chain_get_chunk. rewrite <- Hino in Ht.
    assert (Ecost : cost l = N.of_nat ns * per) by (unfold cost; now rewrite L4).
    eapply wp_mono; [apply (chain_a P HP Has l 0 (m_target st) (m_buf st) w); auto; split; auto|..].
    2:{ intros bd w' Bk S0 K. specialize (Bk S0 K). rewrite Ecost in Bk. lia. }
    intros [[[r buf] ch] t] w' (A1 & A2 & A3 & A4 & A5 & A6 & A7 & A8 & A9 & A10 & A11). rewrite Hino in Ht. rewrite Ecost in A9.
    assert (Ff : forall j, w_files w' j = w_files w j) by (intros j; destruct A1 as (A1 & _); apply A1; exact (fun x => x)).
    pose proof A4 as (I1 & I2 & I3). pose proof A1 as (_ & Q2 & Q3 & Q4 & tr1 & Q5 & _).
    destruct Hsup as (jp & Jp1 & Jp2). destruct (A11 (ex_intro _ jp (conj Jp1 (conj (Nat.le_0_l jp) Jp2)))) as (n & -> & Hn0). destruct (A10 n eq_refl Hn0) as [->|Hfalse].
    + rewrite N.eqb_refl. apply wp_ret. cbn [negb].
      assert (HI' : AInv i (m_set st (Some ch) t (Some (e_H E P)) (m_resuming st) buf) w').
      { constructor; cbn [m_set m_store m_target m_buf].
        - intros j Hj. rewrite Ff. auto.
        - eapply error_free_suffix; eauto.
        - rewrite Ha in Q3. destruct (w_alloc w') as [|x al]; [reflexivity|]. destruct (Q3 x). now left.
        - auto.
        - congruence.
        - rewrite Ff. eapply tlen_same; eauto.
        - intros X. rewrite I2 in X. specialize (Hn X). unfold n_entries, entries in *. now rewrite <- (Permutation_length I3).
        - exists ch. split; [reflexivity|]. split; [exact A3|]. split; [auto|]. split; [congruence|auto].
        - unfold blen in *. now rewrite A2.
        - now rewrite Ff.
        - destruct Htr as (tr & T). exists (tr1 ++ tr). now rewrite Q5, T, app_assoc.
        - intros S0. apply (A9 S0), Hco, S0. }
      eapply wp_mono; [apply (wp_write_a m i _ w' off P Hi HP HI' Ho)|..].
      * intros [ok st'] w2 (X & Y & Z). cbn [fst snd] in *. rewrite X. split; [exact Y|]. intros S0. replace ((N.of_nat ns + 1) * per) with (N.of_nat ns * per + per) by lia.
        eapply used_trans; [apply A9, S0|apply (used_more BUF_SIZE per _ _ HB), Z, S0].
      * intros bd w2 Bk S0 K. destruct (A9 S0) as (U1 & U2). specialize (Bk S0 (U2 K)). lia.
    + assert (FW : Failed w').
      { destruct Htr as (tr & T). destruct Hfalse as (tr2 & T2 & T3). exists (tr2 ++ tr). split; [now rewrite T2, T, app_assoc|]. apply (false_more [] tr2 tr T3). }
      destruct (N.eqb_spec n (blen P)) as [->|Hne]; apply wp_ret; cbn [negb]; [|apply wp_ret; exact FW].
      assert (HI' : AInv i (m_set st (Some ch) t (Some (e_H E P)) (m_resuming st) buf) w').
      { constructor; cbn [m_set m_store m_target m_buf].
        - intros j Hj. rewrite Ff. auto.
        - eapply error_free_suffix; eauto.
        - rewrite Ha in Q3. destruct (w_alloc w') as [|x al]; [reflexivity|]. destruct (Q3 x). now left.
        - auto.
        - congruence.
        - rewrite Ff. eapply tlen_same; eauto.
        - intros X. rewrite I2 in X. specialize (Hn X). unfold n_entries, entries in *. now rewrite <- (Permutation_length I3).
        - exists ch. split; [reflexivity|]. split; [exact A3|]. split; [auto|]. split; [congruence|auto].
        - unfold blen in *. now rewrite A2.
        - now rewrite Ff.
        - destruct Htr as (tr & T). exists (tr1 ++ tr). now rewrite Q5, T, app_assoc.
        - intros S0. apply (A9 S0), Hco, S0. }
      eapply wp_mono; [apply (wp_write_a m i _ w' off P Hi HP HI' Ho)|..].
      * intros [ok st'] w2 (X & Y & Z). cbn [fst snd] in *. rewrite X. split; [exact Y|]. intros S0. replace ((N.of_nat ns + 1) * per) with (N.of_nat ns * per + per) by lia.
        eapply used_trans; [apply A9, S0|apply (used_more BUF_SIZE per _ _ HB), Z, S0].
      * intros bd w2 Bk S0 K. destruct (A9 S0) as (U1 & U2). specialize (Bk S0 (U2 K)). lia.
Qed.

(** The entry is in the target already, and is going to be checked. *)
Definition held (st : mstate) (w : world) (off : N) (P : bytes) : Prop :=
  m_resuming st = true /\ slice_N off (blen P) (w_files w tino) = P /\ off + blen P <= blen (w_files w tino) /\ off < OFF_LIMIT.
Lemma wp_entry_a m i st w off P : i < bound -> In P pieces -> (asked P /\ exists j, J j /\ sup j P) \/ held st w off P -> AInv i st w -> off + blen P <= total ->
  wp (entry_cb E m off (blen P) (e_H E P) st)
     (fun r w' => if fst r then (AInv (i + 1) (snd r) w' /\ spent ((N.of_nat ns + 2) * per) w w') /\
       (held st w off P -> m_resuming (snd r) = true /\ w_files w' tino = w_files w tino) else Failed w') (fun _ _ => broke ((N.of_nat ns + 2) * per) w) w.
Proof.
  intros Hi HP Hs HI Ho. pose proof HE as (HH & Hq & Hbs & Hz). pose proof (Hlen P HP) as LP. unfold entry_cb. destruct (m_resuming st) eqn:Em.
  2:{ assert (NH : ~ held st w off P) by (intros (X & _); congruence). destruct Hs as [(Has & Hsup)|Hs]; [|contradiction]. eapply wp_mono; [apply (wp_fetch_a m i st w off P); auto|..].
      - intros [[|] st'] w'; cbn [fst snd]; [|auto]. intros (X & Y). split; [|contradiction]. split; [exact X|]. intros S0. eapply used_more; [|apply Y, S0]. lia.
      - intros bd w' Bk S0 K. specialize (Bk S0 K). lia. }
  replace (BUF_SIZE <? blen P) with false by lia. pose proof HI as [Hf He Ha Hc Hino Ht Hn (l & L1 & L2 & L3 & L4 & L5) Hb Hgr Htr Hco].
  assert (HQ : forall w', quiet0 w w' -> quiet (eq tino) (fun _ => True) w w').
  { intros w'. apply quiet_mono; auto. intros j []. }
  apply wp_bind, wp_check_chunk with (b := true); auto.
  - intros X. split; [apply Ht, X|]. specialize (Hn X). change (2 ^ 64) with 18446744073709551616 in *. lia.
  - intros _. exact Hc.
  - lia.
  - rewrite Hino. intros tmp t' w' Q U Lt Hr _ Hoff Had.
    eapply wp_mono; [refine (wp_conj2 _ _ _ _ _ _ _ (wp_progress_a m (i + 1) (mkM (m_store st) t' (m_last_id st) true tmp (m_skipped st + 1) (m_handled st)) w' (fun _ _ => broke ((N.of_nat ns + 2) * per) w) _) (wp_progress_r m (mkM (m_store st) t' (m_last_id st) true tmp (m_skipped st + 1) (m_handled st)) w'))|..]; auto.
    + eapply (AInv_added i st w _ w' _ off P (HQ _ Q)); auto; cbn [m_buf m_target m_store].
      * apply Hoff. lia.
      * unfold blen in *. now rewrite Lt.
      * intros _. apply U.
      * rewrite (quiet0_files _ _ Q). destruct Hr; lia.
      * rewrite (quiet0_files _ _ Q). lia.
    + intros [ok st'] w2 ((X & Y & Z) & V1 & V2). cbn [fst snd] in *. rewrite X. split; [|intros _; split; [exact V1|rewrite V2; apply (quiet0_files _ _ Q)]]. split; [exact Y|]. intros S0. destruct (used_more (blen P) ((N.of_nat ns + 2) * per) w w' ltac:(lia) U) as (U1 & U2). split.
      * now rewrite Z.
      * intros K. destruct Y as [_ _ _ _ _ _ _ _ _ _ _ Co]. auto.
    + intros bd w2 (X & _). exact X.
  - intros r tmp w' Q Hr Lt U Hno.
    assert (NH : ~ held st w off P).
    { rewrite Hino in Hno. intros (_ & H1 & H2 & H3). now apply (Hno Hc He H2 H3); rewrite H1. }
    destruct Hs as [(Has & Hsup)|Hs]; [|contradiction].
    assert (HI' : AInv i (m_set st (m_store st) (m_target st) (m_last_id st) false tmp) w').
    { pose proof Q as (_ & Q2 & Q3 & Q4 & tr1 & Q5 & _). constructor; cbn [m_set m_buf m_target m_store]; auto.
      - intros j Hj. rewrite (quiet0_files _ _ Q). auto.
      - eapply error_free_suffix; eauto.
      - rewrite Ha in Q3. destruct (w_alloc w') as [|x al]; [reflexivity|]. destruct (Q3 x). now left.
      - now rewrite (quiet0_files _ _ Q).
      - exists l. split; [exact L1|]. split; [|auto]. eapply subs_ok_stable; [| |exact L2]; [|reflexivity]. intros j _. apply (quiet0_files _ _ Q).
      - unfold blen in *. now rewrite Lt.
      - now rewrite (quiet0_files _ _ Q).
      - destruct Htr as (tr & T). exists (tr1 ++ tr). now rewrite Q5, T, app_assoc.
      - intros S0. apply U, Hco, S0. }
    assert (K : wp (entry_fetch_write E m off (blen P) (e_H E P) (m_set st (m_store st) (m_target st) (m_last_id st) false tmp))
      (fun r w' => if fst r then (AInv (i + 1) (snd r) w' /\ spent ((N.of_nat ns + 2) * per) w w') /\ (held st w off P -> m_resuming (snd r) = true /\ w_files w' tino = w_files w tino) else Failed w') (fun _ _ => broke ((N.of_nat ns + 2) * per) w) w').
    { eapply wp_mono; [apply (wp_fetch_a m i _ w' off P Hi HP Has Hsup HI' Ho)|..].
      - intros [[|] st'] w2; cbn [fst snd]; [|auto]. intros (X & Y). split; [|contradiction]. split; [exact X|]. intros S0. apply (used_more (blen P + (N.of_nat ns + 1) * per)); [lia|]. eapply used_trans; [exact U|apply Y, S0].
      - intros bd w2 Bk S0 K. destruct U as (U1 & U2). specialize (Bk S0 (U2 K)). lia. }
    destruct r as [[|]|]; [congruence|exact K|exact K].
  - intros bd w' Q Hbd S0 K. destruct Hbd as [(_ & [X|X])|(_ & X & _)]; [lia|congruence|lia].
Qed.
End Avail.

Lemma wp_free_idx w (R : bad -> world -> Prop) : forall l, Forall (fun ss => match ss_store ss with SLocal ls => idx_ok (ls_idx ls) | _ => True end) l -> wp (store_chain_free l) (fun _ w' => w' = w) R w.
Proof.
  induction 1 as [|ss l Hs _ IH]; cbn [store_chain_free]; [now apply wp_ret|]. destruct (ss_store ss) as [ls|hs|]; auto. apply wp_bind. destruct Hs as (Hp & _).
  unfold store_local_free, index_cleanup. rewrite Hp. apply wp_bind, wp_ret, wp_ret. exact IH.
Qed.

Section Described.
Variables (E : env) (f : bytes) (n : nat) (pieces : list bytes) (p : params).
Hypothesis (HD : describes E f n pieces) (Hok : bytes_ok f).
Lemma described_len i P : nth_error pieces i = Some P -> ent_len f (ent_start f i) i = blen P.
Proof.
  intros HP. destruct HD as (_ & H). destruct (H i P HP) as (A & B & _). unfold ent_len. rewrite A. change (2 ^ 64) with 18446744073709551616. change (2 ^ 32) with 4294967296 in B.
  replace (ent_start f i + blen P + 18446744073709551616 - ent_start f i) with (blen P + 1 * 18446744073709551616) by lia. rewrite N.mod_add by lia. apply N.mod_small. lia.
Qed.
Lemma described_kept i P : nth_error pieces i = Some P -> skipped p f n (ent_start f i) i = false.
Proof.
  intros HP. unfold skipped. rewrite (described_len i P HP). destruct HD as (_ & H). destruct (H i P HP) as (_ & B & _).
  replace (UINT32_MAX <? blen P) with false by (unfold UINT32_MAX; change (2 ^ 32) with 4294967296 in B; lia). apply andb_false_r.
Qed.
Lemma described_end i P : nth_error pieces i = Some P -> ent_start f i + blen P <= blen (concat pieces).
Proof.
  intros HP. assert (Hi : (S i <= n)%nat). { destruct HD as (<- & _). apply nth_error_Some. congruence. }
  pose proof (start_concat E f n pieces HD (S i) Hi) as X. destruct HD as (L & H). destruct (H i P HP) as (A & _). cbn [ent_start] in X. rewrite A in X.
  rewrite <- (firstn_skipn (S i) pieces) at 1. rewrite concat_app, blen_app. unfold blen at 2. lia.
Qed.
Lemma begun_at g k i P : begun_with g (firstn k pieces) -> (i < k)%nat -> nth_error pieces i = Some P ->
  slice_N (ent_start f i) (blen P) g = P /\ ent_start f i + blen P <= blen g.
Proof.
  intros (r & ->) Hi HP. assert (Hin : (i < n)%nat). { destruct HD as (<- & _). apply nth_error_Some. congruence. }
  pose proof (start_concat E f n pieces HD i ltac:(lia)) as X. assert (X' : ent_start f i = blen (concat (firstn i pieces))) by (unfold blen; lia). rewrite X'.
  assert (D : firstn k pieces = firstn i pieces ++ P :: skipn (S i) (firstn k pieces)).
  { assert (Y : nth_error (firstn k pieces) i = Some P) by (rewrite nth_error_firstn; replace (i <? k)%nat with true by (symmetry; now apply Nat.ltb_lt); exact HP). rewrite <- (firstn_skipn i (firstn k pieces)) at 1. rewrite firstn_firstn, Nat.min_l by lia. f_equal. clear -Y. revert Y. generalize (firstn k pieces). clear. intros l. revert i. induction l as [|x l IH]; intros [|i] Y; try discriminate; [cbn in *; congruence|]. cbn [skipn]. now apply IH. }
  rewrite D, concat_app. cbn [concat]. unfold slice_N, blen. rewrite <- !app_assoc, !Nat2N.id, !app_length. split; [|lia]. unfold slice. rewrite skipn_app, skipn_all, Nat.sub_diag. cbn [app skipn]. now rewrite firstn_app, firstn_all, Nat.sub_diag, firstn_O, app_nil_r.
Qed.
End Described.

Lemma wp_run_a E argv w wk su w1 pieces (sim : Prop) (J : nat -> Prop) (fit : nat -> store -> Prop) (sup : nat -> bytes -> Prop) (per : N) (k : nat) l : sane E argv w -> error_free (w_io w1) -> w_alloc w1 = [] -> kc_clean w1 ->
  described E argv w pieces -> (forall P, In P pieces -> 0 < blen P <= BUF_SIZE) ->
  let tino := t_ino (su_target su) in
  BUF_SIZE <= per ->
  (forall j s t P out x, J j -> fit j s -> In P (skipn k pieces) -> t_ino t = tino -> fair w1 tino x -> blen out = BUF_SIZE -> store_ok E true x t s ->
    wp (store_get_chunk E s t (e_H E P) out) (fun r x' => let '(r, _, s', _) := r in fit j s' /\ (exists m, r = Some m /\ (sup j P -> 0 < m)) /\ spent sim per x x') (fun _ _ => broke sim per x) x) ->
  (forall j s, fit j s -> match s with SLocal ls => idx_ok (ls_idx ls) | _ => True end) ->
  (forall P, In P (skipn k pieces) -> exists j, J j /\ sup j P) -> begun_with (w_files w tino) (firstn k pieces) -> has_room E w tino (blen (concat pieces)) ->
  started w wk -> ready E true argv w wk su w1 -> su_store su = Some l -> found J fit 0 l ->
  (sim -> lean J fit 0 l /\ w_kcapi w1 = false) ->
  wp (run_sync E su) (fun c w2 => c = 0 \/ false_since E pieces w1 w2)
     (fun _ _ => sim -> (transfers (w_io w1) < N.to_nat (su_n su * percost per (length l)))%nat) w1.
Proof.
  intros HS He Ha Hc HD Hl tino HB Hfit Hidx Hsup Hbegun Hroom Hst HR Hsu Hfound Hsim. pose proof (ready_files _ _ _ _ _ _ _ Hst HR) as Hfil. destruct HS as [HE Hsv Hes Hf Hargs Hhelp Hix Hal Hdd].
  destruct HR as [R1 R2 R3 R4 R5 R6 R7 (l' & R8 & R9 & R10)]. assert (l' = l) as -> by congruence.
  set (f := w_files w (su_index su)) in *. set (n := N.to_nat (su_n su)) in *. fold tino in R3, R6, R7, R9.
  assert (Hn : su_n su = N.of_nat n) by (unfold n; lia).
  assert (Hne : su_index su <> tino) by (intros Heq; apply (Hix tino R3); rewrite R2; congruence).
  assert (Hlen : (64 + 40 * n <= length f)%nat) by (eapply valid_length; eauto). destruct (Hf (su_index su)) as (Hok & Hlim). fold f in Hok, Hlim.
  assert (Hb : 60 * (N.of_nat n + 1) < 2 ^ 64). { unfold blen, OFF_LIMIT in Hlim. change (2 ^ 64) with 18446744073709551616. lia. }
  assert (HDf : describes E f n pieces) by (apply (HD _ _ _ R2 R4)).
  assert (Hroom1 : has_room E w1 tino (blen (concat pieces))). { destruct Hroom as (X & Y). split; [exact X|]. destruct (e_kind E tino); auto. now rewrite Hfil. }
  set (ns := length l). set (AI := AInv E pieces sim w1 tino J fit ns).
  assert (HU : AI 0 (initial_mstate su) w1).
  { assert (Hbuf : blen (repeat 0 (N.to_nat BUF_SIZE)) = BUF_SIZE) by (unfold blen; rewrite repeat_length; apply N2Nat.id).
    unfold AI, initial_mstate. constructor; cbn [m_target m_store m_buf]; auto.
    - intros Hq. destruct (R6 Hq) as (X1 & X2 & _). split; [exact X1|]. intros e Hin. unfold entries in Hin. rewrite X2 in Hin. destruct Hin.
    - intros Hq. destruct (R6 Hq) as (X1 & X2 & _). unfold n_entries. rewrite X2. cbn. lia.
    - exists l. split; [exact Hsu|]. split; [exact R9|]. split; [exact Hfound|]. split; [reflexivity|]. intros S0. apply (Hsim S0).
    - lia.
    - exists []. reflexivity.
    - intros S0. apply (Hsim S0). }
  unfold run_sync, caibx_iterate_entries. apply wp_bind. fold n. rewrite Hn at 1. change 0 with (N.of_nat 0) at 1. rewrite Hn.
  set (Rb := fun (_ : bad) (_ : world) => sim -> (transfers (w_io w1) < N.to_nat (N.of_nat n * percost per ns))%nat).
  eapply wp_mono; [apply (iterate_prefix_rule (entry_cb E (N.of_nat n)) (su_index su) (su_params su) f n Hok Hlen Hlim
     (fun i last st w2 => last = ent_start f i /\ AI (N.of_nat i) st w2 /\ ((i <= k)%nat -> m_resuming st = true /\ w_files w2 tino = w_files w tino) /\ paid sim w1 (N.of_nat i * percost per ns) w2) (fun _ w2 => false_since E pieces w1 w2) Rb)|..].
  - intros i last st w2 (_ & HI & _). rewrite (ai_files _ _ _ _ _ _ _ _ _ _ _ HI) by exact Hne. apply Hfil.
  - intros i last st w2 ev Hi (-> & HI & Hh & Hp) Hs Ht. destruct (piece_at E f n pieces HDf i Hi) as (P & P1 & P2 & P3 & P4 & _).
    rewrite (described_kept E f n pieces (su_params su) HDf i P P1), (described_len E f n pieces HDf i P P1), (N.mod_small (blen P)) by exact P3. rewrite P4.
    assert (HP : In P pieces) by (eapply nth_error_In; eauto).
    assert (HI' : AI (N.of_nat i) st (set_io ev w2)) by (destruct HI; constructor; auto; cbn; eapply error_free_suffix; eauto).
    assert (Hheld : (i < k)%nat -> held tino st (set_io ev w2) (ent_start f i) P).
    { intros Hik. destruct (Hh ltac:(lia)) as (H1 & H2). split; [exact H1|]. change (w_files (set_io ev w2) tino) with (w_files w2 tino). rewrite H2.
      destruct (begun_at E f n pieces HDf (w_files w tino) k i P Hbegun Hik P1) as (H3 & H4). split; [exact H3|]. split; [exact H4|]. destruct (Hf tino) as (_ & H5). pose proof (Hl P HP). lia. }
    eapply wp_mono; [apply (wp_entry_a E pieces sim HE Hsv Hl w1 tino J fit sup (fun P => In P (skipn k pieces)) per HB (fun j s t P out x a b _ c => Hfit j s t P out x a b c) ns (N.of_nat n) (blen (concat pieces)) Hb Hroom1 (N.of_nat n) (N.of_nat i) st (set_io ev w2) (ent_start f i) P)|..]; auto.
    + lia.
    + destruct (Nat.lt_ge_cases i k) as [Hik|Hik]; [right; now apply Hheld|left]. assert (HPk : In P (skipn k pieces)). { apply (nth_error_In _ (i - k)). rewrite nth_error_skipn. now replace (k + (i - k))%nat with i by lia. } auto.
    + apply (described_end E f n pieces HDf i P P1).
    + intros [[|] st'] w3; cbn [fst snd]; [|auto]. intros ((X & Y) & V). split; [reflexivity|]. split; [replace (N.of_nat (S i)) with (N.of_nat i + 1) by lia; exact X|]. split.
      { intros Hik. destruct (V (Hheld ltac:(lia))) as (V1 & V2). split; [exact V1|]. rewrite V2. now apply Hh; lia. }
      intros S0. destruct (Y S0) as (Y1 & _). cbn [w_io set_io] in Y1. specialize (Hp S0). unfold percost in *. lia.
    + intros bd w3 Bk S0. assert (K : w_kcapi (set_io ev w2) = false) by (apply (ai_cold _ _ _ _ _ _ _ _ _ _ _ HI' S0)). specialize (Bk S0 K). cbn [w_io set_io] in Bk. specialize (Hp S0). unfold percost in *.
      assert (N.of_nat (S i) * (40 + (N.of_nat ns + 2) * per) <= N.of_nat n * (40 + (N.of_nat ns + 2) * per)) by (apply N.mul_le_mono_r; lia). lia.
  - intros i last st w2 ev Hi (_ & HI & _ & _) Hs Hne2. elim Hne2. apply (ai_io _ _ _ _ _ _ _ _ _ _ _ HI).
  - intros i last st w2 Hi (_ & HI & _ & Hp) Ht S0. specialize (Hp S0). unfold percost in *.
    assert (N.of_nat (S i) * (40 + (N.of_nat ns + 2) * per) <= N.of_nat n * (40 + (N.of_nat ns + 2) * per)) by (apply N.mul_le_mono_r; lia). lia.
  - lia.
  - split; [reflexivity|]. split; [exact HU|]. split; [intros _; split; [reflexivity|apply Hfil]|]. intros S0. lia.
  - intros [ok st] w2 H. cbn [fst snd] in H. destruct ok; cbn [negb]; [|apply wp_ret; right; exact H]. destruct H as (last & _ & HI & _ & _).
    destruct (ai_chain _ _ _ _ _ _ _ _ _ _ _ HI) as (l2 & -> & _ & _ & _ & Hs2). apply wp_bind.
    assert (Fidx : sim -> Forall (fun ss => match ss_store ss with SLocal ls => idx_ok (ls_idx ls) | _ => True end) l2).
    { intros S0. apply Forall_forall. intros ss Hin. apply In_nth_error in Hin as (k2 & Hk). destruct (Hs2 S0 k2 ss Hk) as [X|(_ & X)]; [|exact (Hidx _ _ X)]. destruct (ss_store ss); auto. apply X. }
    eapply wp_mono; [apply (wp_imp _ sim (store_chain_free l2) (fun _ w' => w' = w2) (fun _ _ => False) w2 (fun S0 => wp_free_idx w2 _ l2 (Fidx S0)))|..].
    + intros _ w3 _. apply wp_ret. now left.
    + intros bd w3 X S0. destruct (X S0).
  - auto.
Qed.

(** ** HTTP stores that are relied on *)
Definition fhs (base : bytes) (key : option bytes) (hs : hstore) : Prop := http_ok hs /\ hs_base hs = base /\ hs_key hs = key /\ hs_dec_cap hs <= 2 * 2 ^ 38.
Lemma http_fit E base key (sim : Prop) w0 tino P hs t out w : env_ok E -> server_ok E -> 0 < blen P <= BUF_SIZE -> (forall k, key = Some k -> length k = 32%nat /\ bytes_ok k) ->
  has_chunk E base key P \/ lacks_chunk E base key (e_H E P) -> fhs base key hs -> fair w0 tino w -> blen out = BUF_SIZE ->
  wp (store_get_chunk E (SHttp hs) t (e_H E P) out) (fun x w' => let '(r, _, s', _) := x in
       (exists hs', s' = SHttp hs' /\ fhs base key hs') /\ (exists m, r = Some m /\ (has_chunk E base key P -> 0 < m)) /\ spent sim BUF_SIZE w w') (fun _ _ => broke sim BUF_SIZE w) w.
Proof.
  intros HE Hsv LP Hkey Hhl (F1 & F2 & F3 & F4) (_ & _ & Ha & Hc) Hl. pose proof HE as (HH & Hq & Hb & Hz). set (id := e_H E P).
  assert (Lid : length id = 32%nat) by apply HH. assert (Bid : bytes_ok id) by apply HH. unfold store_get_chunk. apply wp_bind.
  assert (Lay : casync_url base id (chunk_url hs id) (match key with Some _ => true | None => false end)) by (rewrite <- F2, <- F3; apply chunk_url_layout; auto).
  assert (Fc : has_chunk E base key P -> wp (store_http_get_chunk E hs id out) (fun x w' => let '(r, out', hs') := x in r = Some (blen P) /\ same_store hs hs' /\ hs_dec_cap hs' <= 2 * 2 ^ 38) (fun bd w' => True) w).
  { intros (body & B1 & B2 & B3). destruct (B3 (chunk_url hs id) Lay (w_nperf w)) as (q & Q1 & Q2 & Q3).
    eapply wp_mono; [apply (http_delivers_wire E hs id out w body P q (2 ^ 38))|..]; auto.
    - intros k Hk. apply Hkey. congruence.
    - unfold blen in *. lia.
    - reflexivity.
    - now rewrite F3.
    - intros [[r out'] hs'] w' (X1 & _ & _ & X2 & X3). auto. }
  assert (Fl : lacks_chunk E base key id -> wp (store_http_get_chunk E hs id out) (fun x w' => let '(r, out', hs') := x in r = Some 0 /\ same_store hs hs' /\ hs_dec_cap hs' = hs_dec_cap hs) (fun bd w' => True) w).
  { intros Hlk. destruct (Hlk (chunk_url hs id) Lay (w_nperf w)) as (q & Q1 & Q2 & Q3). eapply wp_mono; [apply (wp_http_missing E hs id out w q)|..]; auto. }
  assert (Hm : hash_mode true w) by (intros _; exact Hc).
  eapply wp_mono; [apply (keeps_wp _ _ w (keeps_http E hs id out) _ _ (wp_conj2 _ _ _ _ _ _ _ (wp_http_get E true hs id out w Hz Hsv F1 Lid Hm)
      (wp_conj2 _ _ _ _ _ _ _ (wp_imp _ (has_chunk E base key P) _ _ _ w Fc) (wp_imp _ (lacks_chunk E base key id) _ _ _ w Fl))))|..].
  - intros [[r out'] hs'] w' (((A & B & C & _) & Fa & Fb) & U). apply wp_ret. destruct C as (C1 & C2 & C3).
    assert (Keep : hs_dec_cap hs' <= 2 * 2 ^ 38 -> exists hs'0, SHttp hs' = SHttp hs'0 /\ fhs base key hs'0).
    { intros K. exists hs'. split; [reflexivity|]. split; [exact B|]. split; [congruence|]. split; [congruence|exact K]. }
    assert (Us : spent sim BUF_SIZE w w') by (intros _; apply (used_more 0); [lia|exact U]).
    destruct Hhl as [Hh|Hh].
    + destruct (Fa Hh) as (-> & _ & X). split; [auto|]. split; [|exact Us]. exists (blen P). split; [reflexivity|]. intros _. apply LP.
    + destruct (Fb Hh) as (Er & _ & X). split; [apply Keep; lia|]. split; [|exact Us]. exists 0. split; [exact Er|]. intros Hy. destruct (Fa Hy) as (Z & _). rewrite Er in Z. injection Z as Z. lia.
  - intros bd w' (((_ & K) & _) & (_ & U)) _ K0. specialize (U K0). congruence.
Qed.

(** The store of an argument that is a URL. *)
Lemma found_arg E argv w wk su w1 l arg j : started w wk -> ready E true argv w wk su w1 -> su_store su = Some l -> nth_error (cmd_stores argv) j = Some arg ->
  classify_arg (cmd_target argv) arg = ArgHttp arg ->
  exists base key hs, store_denotes E w arg base key /\ (forall k, key = Some k -> length k = 32%nat /\ bytes_ok k) /\ nth_error l j = Some (mkSub (SHttp hs) true) /\ fhs base key hs.
Proof.
  intros Hst [R1 R2 R3 R4 R5 R6 R7 (l' & R8 & R9 & R10)] Hl Hj Hcl. assert (l' = l) as -> by congruence.
  assert (exists ss, nth_error l j = Some ss /\ made E w (cmd_target argv) (su_params su) arg ss) as (ss & S1 & S2).
  { clear -R10 Hj. revert j Hj. induction R10 as [|x y a c H _ IH]; intros [|j] Hj; try discriminate; [cbn in Hj; injection Hj as ->; exists y; auto|now apply IH]. }
  destruct ss as [s act]. destruct S2 as (Ha & Hm). cbn in Ha. subst act. rewrite Hcl in Hm. cbn [ss_store] in Hm. destruct s as [ls|hs|]; try contradiction.
  destruct Hm as (w2 & F2 & url & params & A & B & C & D & F & G & K). exists (hs_base hs), (hs_key hs), hs. split; [|split; [exact K|]].
  - exists url, params. split; [exact A|]. split; [exact B|]. clear -C F2.
    induction C; [constructor| |]; match goal with K : key_text _ _ _ _ |- _ => apply (key_text_ext E w) in K; [|exact F2] end; [eapply pk_last; eauto|eapply pk_more; eauto].
  - split; [exact S1|]. split; [exact G|]. split; [reflexivity|]. split; [reflexivity|]. rewrite F. cbn; lia.
Qed.

(** ** A run whose stores are what is needed *)
Definition stands (E : env) (argv : list bytes) (w : world) (pieces : list bytes) (sim : Prop) (per : N) (su : setup) (w1 : world) : Prop :=
  forall wk l, started w wk -> ready E true argv w wk su w1 -> su_store su = Some l -> fair w (t_ino (su_target su)) w1 ->
  exists (J : nat -> Prop) (fit : nat -> store -> Prop) (sup : nat -> bytes -> Prop),
    (forall j s t P out x, J j -> fit j s -> In P pieces -> t_ino t = t_ino (su_target su) -> fair w1 (t_ino (su_target su)) x -> blen out = BUF_SIZE -> store_ok E true x t s ->
      wp (store_get_chunk E s t (e_H E P) out) (fun r x' => let '(r, _, s', _) := r in fit j s' /\ (exists m, r = Some m /\ (sup j P -> 0 < m)) /\ spent sim per x x') (fun _ _ => broke sim per x) x) /\
    (forall j s, fit j s -> match s with SLocal ls => idx_ok (ls_idx ls) | _ => True end) /\
    (forall P, In P pieces -> exists j, J j /\ sup j P) /\ found J fit 0 l /\
    (forall k ss arg, sim -> nth_error l k = Some ss -> nth_error (cmd_stores argv) k = Some arg -> (forall path, classify_arg (cmd_target argv) arg <> ArgLocal path None) ->
       simple_store (ss_store ss) \/ relied J fit k (ss_store ss)).

Lemma supplied_run_from E argv w pieces (sim : Prop) (per : N) kh su w1 : sane E argv w -> described E argv w pieces -> (forall P, In P pieces -> 0 < blen P <= BUF_SIZE) ->
  error_free (w_io w) -> w_alloc w = [] -> hash_reliable E w -> (forall ino, e_open_rw E (cmd_target argv) = Some ino -> has_room E w ino (blen (concat pieces))) ->
  BUF_SIZE <= per -> (forall ino, e_open_rw E (cmd_target argv) = Some ino -> begun_with (w_files w ino) (firstn kh pieces)) -> stands E argv w (skipn kh pieces) sim per su w1 -> init E argv w = (Ok (InitOk su), w1) -> (sim -> w_kcapi w1 = false) ->
  (fst (main E argv w) = Ok 0 \/ exists tr, run_trace w (snd (main E argv w)) tr /\ false_answer E pieces tr) \/
  ((forall c, fst (main E argv w) <> Ok c) /\ (sim -> (transfers (w_io w1) < enough_at per (length pieces) (length (cmd_stores argv)))%nat)).
Proof.
  intros HS HD Hl He Ha Hr Hroom HB Hbegun Hstand Hinit Hsim. pose proof (wp_init E true argv w HS (fun _ => Hr)) as H. rewrite main_init. unfold bind, wp in *. rewrite Hinit in H |- *.
  destruct H as (wk & Hst & Q & HR). pose proof HR as [R1 R2 R3 R4 R5 R6 R7 (l & R8 & R9 & R10)].
  assert (Hwk : w_io wk = w_io w /\ w_alloc wk = w_alloc w /\ w_trace wk = w_trace w) by (destruct Hst as (k & ->); auto). destruct Hwk as (K1 & K2 & K3).
  pose proof Q as (_ & Q2 & Q3 & _ & tr & Q5 & _). rewrite K1 in Q2.
  assert (Ll : length l = length (cmd_stores argv)) by (clear -R10; induction R10; cbn; congruence).
  assert (Ln : N.to_nat (su_n su) = length pieces) by (destruct (HD _ _ _ R2 R4) as (X & _); congruence).
  assert (Ha1 : w_alloc w1 = []). { rewrite K2, Ha in Q3. destruct (w_alloc w1) as [|x al]; [reflexivity|]. destruct (Q3 x). now left. }
  pose proof (error_free_suffix _ _ Q2 He) as He1.
  destruct (Hstand wk l Hst HR R8) as (J & fit & sup & Hfit & Hidx & Hsup & Hfound & Hlean).
  { split; [intros j _; apply (ready_files _ _ _ _ _ _ _ Hst HR)|]. split; [exact He1|]. split; [exact Ha1|exact (R5 eq_refl)]. }
  assert (Hsimp : sim -> lean J fit 0 l /\ w_kcapi w1 = false).
  { intros S0. split; [|exact (Hsim S0)]. intros k ss Hk.
    assert (exists arg, nth_error (cmd_stores argv) k = Some arg /\ made E w (cmd_target argv) (su_params su) arg ss) as (arg & N1 & M1 & M2).
    { clear -R10 Hk. revert k Hk. induction R10 as [|x y a c H _ IH]; intros [|k] Hk; try discriminate; [cbn in Hk; injection Hk as ->; exists x; auto|now apply IH]. }
    destruct (classify_arg (cmd_target argv) arg) as [|u|path [ip|]] eqn:Ec.
    1-3: (apply (Hlean k ss arg S0 Hk N1); intros path'; rewrite Ec; discriminate).
    left. rewrite Forall_forall in R9. specialize (R9 ss (nth_error_In _ _ Hk) M1). destruct (ss_store ss) as [ls|hs|]; cbn; auto. cbn in R9. destruct R9 as (_ & _ & _ & _ & Hx & _). split; [exact Hx|]. apply M2. reflexivity. }
  assert (W := wp_run_a E argv w wk su w1 pieces sim J fit sup per kh l HS He1 Ha1 (R5 eq_refl) HD Hl HB Hfit Hidx Hsup (Hbegun _ R3) (Hroom _ R3) Hst HR R8 Hfound Hsimp).
  assert (Cost : N.to_nat (su_n su * percost per (length l)) = enough_at per (length pieces) (length (cmd_stores argv))).
  { unfold enough_at, percost. rewrite Ll, N2Nat.inj_mul, Ln, N2Nat.inj_add, N2Nat.inj_mul, N2Nat.inj_add, Nat2N.id. reflexivity. }
  rewrite Cost in W. unfold wp in W. destruct (run_sync E su w1) as [[c| | |] w2]; cbn [fst snd]; [|right; split; [discriminate|exact W]..].
  left. destruct W as [->|(tr2 & T1 & T2)]; [now left|right]. exists (tr2 ++ tr). split; [unfold run_trace; rewrite T1, Q5, K3; apply app_assoc|]. apply (false_more E pieces [] tr2 tr T2).
Qed.

Lemma supplied_run E argv w pieces (sim : Prop) su w1 : sane E argv w -> described E argv w pieces -> (forall P, In P pieces -> 0 < blen P <= BUF_SIZE) ->
  error_free (w_io w) -> w_alloc w = [] -> hash_reliable E w -> (forall ino, e_open_rw E (cmd_target argv) = Some ino -> has_room E w ino (blen (concat pieces))) ->
  stands E argv w pieces sim BUF_SIZE su w1 -> init E argv w = (Ok (InitOk su), w1) -> (sim -> w_kcapi w1 = false) ->
  (fst (main E argv w) = Ok 0 \/ exists tr, run_trace w (snd (main E argv w)) tr /\ false_answer E pieces tr) \/
  ((forall c, fst (main E argv w) <> Ok c) /\ (sim -> (transfers (w_io w1) < enough (length pieces) (length (cmd_stores argv)))%nat)).
Proof.
  intros HS HD Hl He Ha Hr Hroom Hstand Hinit Hsim. apply (supplied_run_from E argv w pieces sim BUF_SIZE 0 su w1); auto; [lia|]. intros ino _. exists (w_files w ino). reflexivity.
Qed.

(** One server that has everything *)
Lemma available E argv w pieces arg (sim : Prop) su w1 : sane E argv w -> described E argv w pieces -> (forall P, In P pieces -> 0 < blen P <= BUF_SIZE) ->
  error_free (w_io w) -> w_alloc w = [] -> hash_reliable E w -> (forall ino, e_open_rw E (cmd_target argv) = Some ino -> has_room E w ino (blen (concat pieces))) ->
  In arg (cmd_stores argv) -> classify_arg (cmd_target argv) arg = ArgHttp arg ->
  (forall base key P, store_denotes E w arg base key -> In P pieces -> has_chunk E base key P) ->
  init E argv w = (Ok (InitOk su), w1) ->
  (sim -> w_kcapi w1 = false /\ forall a path ip, In a (cmd_stores argv) -> classify_arg (cmd_target argv) a = ArgLocal path ip -> ip = None) ->
  (fst (main E argv w) = Ok 0 \/ exists tr, run_trace w (snd (main E argv w)) tr /\ false_answer E pieces tr) \/
  ((forall c, fst (main E argv w) <> Ok c) /\ (sim -> (transfers (w_io w1) < enough (length pieces) (length (cmd_stores argv)))%nat)).
Proof.
  intros HS HD Hl He Ha Hr Hroom Hin Hcl Hhas Hinit Hsim. apply (supplied_run E argv w pieces sim su w1); auto; [|intros S0; apply (Hsim S0)].
  intros wk l Hst HR Hsu Hfair. apply In_nth_error in Hin as (jf & Hj). destruct (found_arg E argv w wk su w1 l arg jf Hst HR Hsu Hj Hcl) as (base & key & hs & B1 & B2 & B3 & B4).
  exists (eq jf), (fun _ s => exists hs, s = SHttp hs /\ fhs base key hs), (fun _ _ => True). destruct HS as [HE Hsv _ _ _ _ _ _ _]. split; [|split; [|split; [|split]]].
  - intros j s t P out x <- (hs1 & -> & F) HP Ht Hx Ho _. pose proof (Hhas base key P B1 HP) as Hp. eapply wp_mono; [apply (http_fit E base key sim w1 (t_ino (su_target su)) P hs1 t out x HE Hsv (Hl P HP) B2 (or_introl Hp) F Hx Ho)| |auto].
    intros [[[r out'] s'] t'] x' (X & (m & Y1 & Y2) & Z). split; [exact X|]. split; [|exact Z]. exists m. split; [exact Y1|auto].
  - intros j s (hs1 & -> & _). exact Logic.I.
  - intros P HP. exists jf. auto.
  - intros j <- _. exists (SHttp hs). rewrite Nat.sub_0_r. eauto.
  - intros k ss a S0 Hk Ha2 Hnl. left. destruct HR as [_ _ _ _ _ _ _ (l' & R8 & _ & R10)]. assert (l' = l) as -> by congruence.
    assert (M : made E w (cmd_target argv) (su_params su) a ss).
    { clear -R10 Hk Ha2. revert k Hk Ha2. induction R10 as [|x y b c H _ IH]; intros [|k] Hk Ha2; try discriminate; [cbn in *; injection Hk as ->; injection Ha2 as ->; exact H|now apply (IH k)]. }
    destruct M as (_ & M). destruct (ss_store ss) as [ls|hs1|]; cbn; auto. destruct (classify_arg (cmd_target argv) a) as [|u|path ip] eqn:Ec; try contradiction.
    rewrite (proj2 (Hsim S0) a path ip (nth_error_In _ _ Ha2) Ec) in *. elim (Hnl path eq_refl).
Qed.

Lemma no_failure E argv w pieces arg su w1 c : sane E argv w -> described E argv w pieces -> (forall P, In P pieces -> 0 < blen P <= BUF_SIZE) ->
  error_free (w_io w) -> w_alloc w = [] -> hash_reliable E w -> (forall ino, e_open_rw E (cmd_target argv) = Some ino -> has_room E w ino (blen (concat pieces))) ->
  In arg (cmd_stores argv) -> classify_arg (cmd_target argv) arg = ArgHttp arg ->
  (forall base key P, store_denotes E w arg base key -> In P pieces -> has_chunk E base key P) ->
  init E argv w = (Ok (InitOk su), w1) -> fst (main E argv w) = Ok c ->
  c = 0 \/ exists tr, run_trace w (snd (main E argv w)) tr /\ false_answer E pieces tr.
Proof.
  intros HS HD Hl He Ha Hr Hroom Hin Hcl Hhas Hi Hc.
  destruct (available E argv w pieces arg False su w1 HS HD Hl He Ha Hr Hroom Hin Hcl Hhas Hi ltac:(intros [])) as [[X|X]|(X & _)].
  - left. rewrite X in Hc. now injection Hc as <-.
  - now right.
  - destruct (X c Hc).
Qed.

Lemma succeeds E argv w pieces arg su w1 : sane E argv w -> described E argv w pieces -> (forall P, In P pieces -> 0 < blen P <= BUF_SIZE) ->
  error_free (w_io w) -> w_alloc w = [] -> hash_reliable E w -> (forall ino, e_open_rw E (cmd_target argv) = Some ino -> has_room E w ino (blen (concat pieces))) ->
  In arg (cmd_stores argv) -> classify_arg (cmd_target argv) arg = ArgHttp arg ->
  (forall base key P, store_denotes E w arg base key -> In P pieces -> has_chunk E base key P) ->
  init E argv w = (Ok (InitOk su), w1) -> w_kcapi w1 = false ->
  (forall a path ip, In a (cmd_stores argv) -> classify_arg (cmd_target argv) a = ArgLocal path ip -> ip = None) ->
  (enough (length pieces) (length (cmd_stores argv)) <= transfers (w_io w1))%nat ->
  fst (main E argv w) = Ok 0 \/ exists tr, run_trace w (snd (main E argv w)) tr /\ false_answer E pieces tr.
Proof.
  intros HS HD Hl He Ha Hr Hroom Hin Hcl Hhas Hi Hk Hnoi Ht.
  destruct (available E argv w pieces arg True su w1 HS HD Hl He Ha Hr Hroom Hin Hcl Hhas Hi (fun _ => conj Hk Hnoi)) as [X|(_ & X)]; [exact X|]. specialize (X Logic.I). lia.
Qed.

(** ** Setting up when all stores are remote *)
Lemma alloc_nil w : w_alloc w = [] -> alloc w = (Ok true, w).
Proof. intros H. unfold alloc. now rewrite H. Qed.
Lemma append_remote E tp cp n bd arg w : w_alloc w = [] -> e_http_ok E = true -> 0 < n -> 1 <= b_space bd -> N.of_nat (length (b_chain bd)) <= b_space bd -> remote tp arg ->
  exists bd', append_store_from_arg E tp cp n bd arg w = (Ok (Some bd'), w) /\ 1 <= b_space bd' /\ N.of_nat (length (b_chain bd')) <= b_space bd'.
Proof.
  intros Ha Hh Hn Hs Hl Hr. unfold append_store_from_arg.
  assert (Ap : forall s t, exists bd', bind (store_chain_append (b_space bd) (b_chain bd) s) (fun '(ok, space, chain) => ret (if (ok : bool) then Some (mkB space chain t) else None)) w = (Ok (Some bd'), w) /\
     1 <= b_space bd' /\ N.of_nat (length (b_chain bd')) <= b_space bd').
  { intros s t. unfold store_chain_append, bind at 1, bind at 1. destruct (b_space bd <=? N.of_nat (length (b_chain bd))) eqn:Ef.
    - rewrite (alloc_nil w Ha). cbn [negb]. replace (b_space bd * 2 <=? N.of_nat (length (b_chain bd))) with false by lia. eexists. split; [reflexivity|]. cbn. rewrite app_length. cbn [length]. lia.
    - cbn [negb ret]. rewrite Ef. eexists. split; [reflexivity|]. cbn. rewrite app_length. cbn [length]. lia. }
  destruct Hr as [-> |(-> & Hno)].
  - unfold bind at 1, bind at 1, target_as_store. destruct (t_queryable (b_target bd)); [apply Ap|]. unfold bind at 1, index_init, bind at 1, u_assert. replace (0 <? n) with true by lia.
    cbn [ret]. unfold bind at 1. rewrite (alloc_nil w Ha). cbn [negb ret]. apply Ap.
  - unfold bind at 1, bind at 1, store_http_new. rewrite Hh. cbn [negb]. unfold bind at 1. rewrite (alloc_nil w Ha). cbn [negb]. unfold bind at 1. rewrite (alloc_nil w Ha). cbn [negb].
    assert (strrchr arg 35 = None) as ->. { pose proof (strrchr_spec arg 35) as X. destruct (strrchr arg 35); [|reflexivity]. elim Hno. rewrite (proj1 X). apply in_or_app. right. now left. }
    unfold bind at 1. cbn [ret]. unfold bind at 1. rewrite (alloc_nil w Ha). cbn [negb ret]. apply Ap.
Qed.
Lemma appends_remote E tp cp n w : w_alloc w = [] -> e_http_ok E = true -> 0 < n -> forall args bd, 1 <= b_space bd -> N.of_nat (length (b_chain bd)) <= b_space bd -> Forall (remote tp) args ->
  exists bd', append_stores E tp cp n bd args w = (Ok (Some bd'), w).
Proof.
  intros Ha Hh Hn. induction args as [|a args IH]; intros bd Hs Hl Hr; cbn [append_stores]; [exists bd; reflexivity|]. inversion Hr as [|? ? H1 H2]; subst.
  destruct (append_remote E tp cp n bd a w Ha Hh Hn Hs Hl H1) as (bd' & A & B & C). unfold bind. rewrite A. now apply IH.
Qed.

Lemma init_remote E argv w ino p n tino : files_ok w -> is_csn argv = true -> (4 <= length argv)%nat -> e_getenv E (bs "CSN_KCAPI_DRIVER") = None ->
  error_free (w_io w) -> w_alloc w = [] -> (104 <= transfers (w_io w))%nat -> e_open E (cmd_index argv) = Some ino -> valid_index (w_files w ino) p n -> e_kind E ino <> KOther ->
  e_open_rw E (cmd_target argv) = Some tino -> e_http_ok E = true -> 0 < n -> Forall (remote (cmd_target argv)) (cmd_stores argv) ->
  exists su w1, init E argv w = (Ok (InitOk su), w1) /\ w_kcapi w1 = w_kcapi w /\ (transfers (w_io w) <= transfers (w_io w1) + 104)%nat.
Proof.
  intros Hf Hc Hl Hg He Ha Ht Ho Hv Hk Hrw Hh Hn Hr. unfold init, cmd_index, cmd_target, cmd_stores in *. rewrite Hc in *. unfold is_csn in Hc. rewrite Hc.
  destruct argv as [|a0 [|a1 [|a2 [|a3 args]]]]; try (cbn in Hl; lia). unfold csn. rewrite Hg. cbn [nth] in *. unfold bind at 1. cbn [ret negb]. rewrite Ho.
  destruct (Hf ino) as (F1 & F2). destruct (load_header_total E ino w p n F1 F2 Hv Hk He Ht) as (w1 & L1 & ev & -> & Hs & Hc1). unfold bind at 1. rewrite L1.
  assert (Ha1 : w_alloc (set_io ev w) = []) by exact Ha. unfold bind at 1, target_new. unfold bind at 1. rewrite (alloc_nil _ Ha1). cbn [negb]. rewrite Hrw. cbn [ret].
  unfold bind at 1, store_chain_new. unfold bind at 1. rewrite (alloc_nil _ Ha1). cbn [negb]. unfold bind at 1. rewrite (alloc_nil _ Ha1). cbn [negb ret]. unfold bind at 1.
  cbn [skipn] in *.
  match goal with |- context [append_stores E a2 p n ?bd ?l ?x] => destruct (appends_remote E a2 p n x Ha1 Hh Hn l bd) as (bd' & A) end; [cbn [b_space]; lia|cbn [b_space b_chain length]; lia|exact Hr|].
  rewrite A. eexists _, _. split; [reflexivity|]. split; [reflexivity|exact Hc1].
Qed.

Lemma end_to_end E argv w pieces arg ino p n tino : sane E argv w -> described E argv w pieces -> pieces <> [] -> (forall P, In P pieces -> 0 < blen P <= BUF_SIZE) ->
  is_csn argv = true -> (4 <= length argv)%nat -> e_getenv E (bs "CSN_KCAPI_DRIVER") = None -> w_kcapi w = false -> e_http_ok E = true ->
  e_open E (cmd_index argv) = Some ino -> valid_index (w_files w ino) p n -> e_kind E ino <> KOther ->
  e_open_rw E (cmd_target argv) = Some tino -> has_room E w tino (blen (concat pieces)) ->
  Forall (remote (cmd_target argv)) (cmd_stores argv) -> In arg (cmd_stores argv) -> classify_arg (cmd_target argv) arg = ArgHttp arg ->
  (forall base key P, store_denotes E w arg base key -> In P pieces -> has_chunk E base key P) ->
  w_alloc w = [] -> error_free (w_io w) -> (104 + enough (length pieces) (length (cmd_stores argv)) <= transfers (w_io w))%nat ->
  fst (main E argv w) = Ok 0 \/ exists tr, run_trace w (snd (main E argv w)) tr /\ false_answer E pieces tr.
Proof.
  intros HS HD Hne Hl Hc H4 Hg Hk Hh Ho Hv Hkind Hrw Hroom Hr Hin Hcl Hhas Ha He Ht.
  assert (Hn : 0 < n). { destruct (HD _ _ _ Ho Hv) as (L & _). destruct pieces; [congruence|]. cbn [length] in L. lia. }
  destruct (init_remote E argv w ino p n tino (sa_files _ _ _ HS) Hc H4 Hg He Ha ltac:(lia) Ho Hv Hkind Hrw Hh Hn Hr) as (su & w1 & Hi & Hk1 & Ht1).
  refine (succeeds E argv w pieces arg su w1 HS HD Hl He Ha (or_introl (conj Hg Hk)) _ Hin Hcl Hhas Hi _ _ _).
  - intros ino' X. assert (ino' = tino) as -> by congruence. exact Hroom.
  - congruence.
  - intros a path ip Hi2 X. rewrite Forall_forall in Hr. destruct (Hr a Hi2) as [Y|(Y & _)]; congruence.
  - lia.
Qed.
