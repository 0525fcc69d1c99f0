(** The memory a run takes (C85). *)
From Coq Require Import Sorting.Permutation.
From Verif Require Import Base Lib Utils Sha Encrypt Chunker Caibx Index StoreLocal Target StoreHttp Chain Ui MainProg
  SpecBasic SpecEnv SpecChunker SpecStore SpecHttp SpecCaibx SpecMain SpecRun SpecEdit SpecHeap
  PfUtils PfBasic PfIO PfRead PfChunker PfScan PfIndex PfFrame PfEncrypt PfLocal PfHttp PfHttp2 PfCaibx PfTarget PfChain PfMain PfMain2 PfSetup PfRun PfReadonly PfMemory.
Local Open Scope N_scope.

(** ** The decode buffer *)
Section Http.
Variables (E : env) (B : N).
Hypothesis HB : responses_within E B.

Definition hold (d c : N) (r : req) : Prop := blen (rq_dec r) <= d /\ rq_cap r <= c.
Lemma hold_more d c d' c' r : d <= d' -> c <= c' -> hold d c r -> hold d' c' r.
Proof. unfold hold. lia. Qed.
Lemma gives_absorb r data d c : hold d c r -> gives (fun x => hold (d + blen data) (N.max c (d + 2 * blen data)) (snd x)) (decode_buffer_absorb r data).
Proof.
  intros (H1 & H2). unfold decode_buffer_absorb.
  assert (H0 : hold (d + blen data) (N.max c (d + 2 * blen data)) r) by (split; lia).
  set (grow := rq_cap r - blen (rq_dec r) <? blen data). destruct (grow && _); [now apply gives_ret|]. skip_bind. destruct (negb a); [now apply gives_ret|].
  assert (Hc : (if grow then (rq_cap r + blen data) mod SIZE_MOD else rq_cap r) <= N.max c (d + 2 * blen data)).
  { destruct grow eqn:G; [|lia]. unfold grow in G. pose proof (N.mod_le (rq_cap r + blen data) SIZE_MOD ltac:(discriminate)). lia. }
  clearbody grow. destruct (_ <? _); [apply gives_ub|]. destruct (rq_cipher r) as [ci|].
  - pose proof (length_encrypt_do ci data) as L. destruct (encrypt_do ci data) as [x ci']. cbn [fst] in L. apply gives_ret. split; [|exact Hc]. cbn [snd rq_dec]. rewrite blen_app. unfold blen in *. lia.
  - apply gives_ret. split; [|exact Hc]. cbn [snd rq_dec]. rewrite blen_app. lia.
Qed.
Lemma gives_handle r data d c : hold d c r -> gives (fun x => hold d c (snd x) /\ rq_dec (snd x) = rq_dec r) (handle_data E r data).
Proof.
  intros H. unfold handle_data. destruct (rq_state r); [| |apply gives_abort].
  - destruct (_ <? _); [now apply gives_ret|]. destruct (negb _); [now apply gives_ret|]. cbv zeta. destruct (e_zstep _ _ _ _) as [[? ?]|]; now apply gives_ret.
  - cbv zeta. destruct (e_zstep _ _ _ _) as [[? ?]|]; now apply gives_ret.
Qed.
Lemma blen_skipn n (l : bytes) : blen (skipn n l) <= blen l.
Proof. unfold blen. rewrite skipn_length. lia. Qed.
Lemma gives_data code ptr r d c : hold d c r -> gives (fun x => hold (d + blen ptr) (N.max c (d + 2 * blen ptr)) (snd x)) (store_http_data_cb E code ptr r).
Proof.
  intros H. unfold store_http_data_cb. assert (H0 : forall s, hold (d + blen ptr) (N.max c (d + 2 * blen ptr)) (rq_set_state s r)) by (intros s; destruct H; split; cbn [snd rq_dec rq_cap rq_set_state rq_set_dec] in *; lia).
  cbv zeta. destruct (match rq_state r with STARTED => _ | _ => false end); [apply gives_ret, H0|].
  assert (Rest : gives (fun x => hold (d + blen ptr) (N.max c (d + 2 * blen ptr)) (snd x))
    (if negb (blen (rq_dec r) =? 0) || (match rq_cipher r with Some _ => true | None => false end) then
        '(ok, r) <- decode_buffer_absorb r ptr ;;
        if negb (ok : bool) then ret (0, rq_set_state FAILED r) else
        '(n, r) <- handle_data E r (rq_dec r) ;;
        match n with
        | None => ret (0, rq_set_state FAILED r)
        | Some n => ret (blen ptr, rq_set_dec (skipn n (rq_dec r)) r)
        end
      else
        '(n, r) <- handle_data E r ptr ;;
        match n with
        | None => ret (0, rq_set_state FAILED r)
        | Some n =>
            if Nat.ltb n (length ptr) then
              '(ok, r) <- decode_buffer_absorb r (skipn n ptr) ;;
              if negb (ok : bool) then ret (0, rq_set_state FAILED r)
              else ret (blen ptr, r)
            else ret (blen ptr, r)
        end)).
  { destruct (_ || _).
    - eapply gives_bind; [apply gives_absorb, H|]. intros [ok r1] H1. cbn [snd] in H1. destruct (negb ok); [now apply gives_ret|].
      eapply gives_bind; [apply gives_handle, H1|]. intros [[n|] r2] (H2 & _); cbn [snd] in H2; apply gives_ret; [|exact H2]. destruct H2 as (A & C). split; [|exact C].
      cbn [snd rq_dec rq_set_dec]. pose proof (blen_skipn n (rq_dec r2)). lia.
    - eapply gives_bind; [apply gives_handle, H|]. intros [[n|] r2] (H2 & _); cbn [snd] in H2; [|apply gives_ret; destruct H2; split; cbn [snd rq_dec rq_cap rq_set_state rq_set_dec] in *; lia].
      destruct (Nat.ltb _ _); [|apply gives_ret; destruct H2; split; cbn [snd rq_dec rq_cap rq_set_state rq_set_dec] in *; lia]. eapply gives_bind; [apply gives_absorb, H2|]. intros [ok r3] H3. cbn [snd] in H3. pose proof (blen_skipn n ptr).
      destruct (negb ok); apply gives_ret; destruct H3; split; cbn [snd rq_dec rq_cap rq_set_state rq_set_dec] in *; lia. }
  destruct (rq_state r) eqn:Er; [exact Rest|exact Rest|]. apply gives_ret. specialize (H0 (rq_state r)). destruct H0. split; auto.
Qed.
Lemma gives_deliver code fin : forall segs r d c, hold d c r ->
  gives (fun x => hold (d + blen (concat segs)) (N.max c (d + 2 * blen (concat segs))) (snd x)) (curl_deliver E code segs fin r).
Proof.
  induction segs as [|s segs IH]; intros r d c H; cbn [curl_deliver concat].
  - apply gives_ret. destruct H. split; cbn [snd rq_dec rq_cap rq_set_state rq_set_dec] in *; lia.
  - eapply gives_bind; [apply gives_data, H|]. intros [n r1] H1. cbn [snd] in H1. rewrite blen_app. destruct (_ =? _).
    + eapply gives_mono; [|apply IH, H1]. intros x. apply hold_more; lia.
    + apply gives_ret. eapply hold_more; [..|exact H1]; lia.
Qed.
Lemma gives_perform url r d c : hold d c r -> gives (fun x => hold (d + B) (N.max c (d + 2 * B)) (snd x)) (curl_easy_perform E url r).
Proof.
  intros H. unfold curl_easy_perform. intros w. pose proof (HB url (w_nperf w)) as Hs. set (p := e_server E url (w_nperf w)) in *. set (w1 := add_trace _ _).
  assert (G : gives (fun x => hold (d + B) (N.max c (d + 2 * B)) (snd x)) ('(c, r) <- curl_deliver E (p_code p) (p_segs p) (p_end p) r ;; ret (c, p_code p, r))).
  { eapply gives_bind; [apply gives_deliver, H|]. intros [x r1] H1. cbn [snd] in H1. apply gives_ret. eapply hold_more; [..|exact H1]; lia. }
  exact (G w1).
Qed.
Lemma gives_retried url : forall rem wait r d c, hold d c r ->
  gives (fun x => rq_cap (snd x) <= N.max c (d + (N.of_nat rem + 1) * B)) (retried_curl_easy_perform E url rem wait r).
Proof.
  induction rem as [|rem IH]; intros wait r d c H; cbn [retried_curl_easy_perform]; [apply gives_halt|].
  eapply gives_bind; [apply gives_perform, H|]. intros [[x code] r1] H1. cbn [snd] in H1.
  assert (H2 : rq_cap r1 <= N.max c (d + (N.of_nat (S rem) + 1) * B)) by (destruct H1 as (_ & H1); nia).
  destruct (negb _); [now apply gives_ret|]. skip_bind. cbv zeta. destruct rem as [|rem]; [now apply gives_ret|]. eapply gives_mono; [|apply IH, H1]. cbv beta. intros y Hy. nia.
Qed.
Lemma gives_http_get hs id out c : hs_dec_cap hs <= c -> 11 * B <= c -> gives (fun x => hs_dec_cap (snd x) <= c) (store_http_get_chunk E hs id out).
Proof.
  intros H Hc. unfold store_http_get_chunk. skip_bind. destruct a as [url|]; [|now apply gives_ret]. skip_bind. destruct (negb a); [now apply gives_ret|]. cbv zeta.
  eapply gives_bind; [apply (gives_retried url CONNECT_TRIES 200000 _ 0 c)|].
  { split; cbn [rq_dec rq_cap]; [unfold blen; cbn [length]; lia|exact H]. }
  intros [[x code] r] Hr. cbn [snd] in Hr.
  assert (Hr' : rq_cap r <= c) by (change (N.of_nat CONNECT_TRIES) with 10 in Hr; lia). clear Hr.
  destruct (curl_is_transient_error x); [now apply gives_ret|].
  destruct x; try (now apply gives_ret).
  all: destruct code as [cd|]; [|now apply gives_ret]; destruct (_ || _); [now apply gives_ret|]; destruct (400 <=? cd); [now apply gives_ret|].
  all: destruct (rq_state r); try (now apply gives_ret); skip_bind; destruct (negb _); now apply gives_ret.
Qed.

Lemma request_within hs id out w r out' hs' w' : store_http_get_chunk E hs id out w = (Ok (r, out', hs'), w') ->
  hs_dec_cap hs' <= N.max (hs_dec_cap hs) (11 * B).
Proof.
  intros H. pose proof (gives_http_get hs id out (N.max (hs_dec_cap hs) (11 * B)) (N.le_max_l _ _) (N.le_max_r _ _) w) as G.
  rewrite H in G. exact G.
Qed.
End Http.

(** ** Indices *)
Lemma insert_space x off len id flags : gives (fun r : bool * index => let '(ok, y) := r in
   length (ix_entries y) = (length (ix_entries x) + (if ok then 1 else 0))%nat /\
   ix_space y <= N.max (ix_space x) (12 * n_entries x / 10 + 1) /\ (n_entries x < ix_space x -> ix_space y = ix_space x)) (store_insert_index flags off len id x).
Proof.
  unfold store_insert_index, index_insert.
  eapply (gives_bind _ _ (fun r : option nat * index => let '(pos, y) := r in length (ix_entries y) = (length (ix_entries x) + (if pos then 1 else 0))%nat /\
     ix_space y <= N.max (ix_space x) (12 * n_entries x / 10 + 1) /\ (n_entries x < ix_space x -> ix_space y = ix_space x))).
  - skip_bind. destruct (ix_ptr x); [apply gives_abort| |apply gives_ub]. skip_bind.
    destruct (negb _); [apply gives_ret; split; [lia|split; [lia|auto]]|]. cbv zeta. destruct (_ <? _); [apply gives_ub|]. apply gives_ret. cbn [ix_entries ix_space]. split.
    { rewrite app_length. cbn. lia. }
    destruct (ix_space x <=? n_entries x) eqn:G; [|split; [lia|auto]]. split; [|lia].
    pose proof (N.mod_le (ix_space x * 12) SIZE_MOD ltac:(discriminate)).
    assert ((ix_space x * 12) mod SIZE_MOD / 10 <= 12 * n_entries x / 10) by (apply N.div_le_mono; [discriminate|lia]). lia.
  - intros [[pos|] y] (H1 & H2 & H3); apply gives_ret.
    + split; [|split]; unfold index_or_flags; destruct (nth_error (ix_entries y) pos); cbn [ix_entries ix_space]; auto. now rewrite length_upd_nth.
    + auto.
Qed.
Lemma iterate_space ino p n : forall k i last x, n_entries x + N.of_nat k <= ix_space x ->
  gives (fun r => ix_space (snd r) = ix_space x) (iterate_loop (store_insert_index 0) ino p n k i last x).
Proof.
  induction k as [|k IH]; intros i last x H; cbn [iterate_loop]; [now apply gives_ret|]. skip_bind. destruct a as [ok buf]. destruct (negb ok); [now apply gives_ret|].
  destruct (_ && _); [apply IH; lia|]. eapply gives_bind; [apply insert_space|]. intros [ok' y] (H1 & _ & H3). specialize (H3 ltac:(lia)).
  destruct (negb ok') eqn:Eo; [now apply gives_ret|]. destruct ok'; [|discriminate]. rewrite <- H3. apply IH. unfold n_entries in *. rewrite H1, H3. lia.
Qed.

Lemma query_space E x id : gives (fun r => ix_space (snd r) = ix_space x) (index_query E x id).
Proof. unfold index_query. destruct (ix_ptr x); [|destruct (ix_sorted x); now apply gives_ret|apply gives_ub]. destruct (ix_entries x); [|apply gives_ub]. destruct (ix_sorted x); now apply gives_ret. Qed.
Lemma cleanup_space x : gives (fun y => ix_space y = ix_space x) (index_cleanup x).
Proof. unfold index_cleanup. destruct (ix_ptr x); [now apply gives_ret|now apply gives_ret|apply gives_ub]. Qed.
Lemma insert_still x off len id flags w : wp (store_insert_index flags off len id x) (fun _ w' => w_io w' = w_io w /\ w_files w' = w_files w) (fun _ _ => True) w.
Proof.
  unfold store_insert_index, index_insert. apply wp_bind, wp_bind, wp_assert; [|auto]. intros _. destruct (ix_ptr x); try exact I.
  apply wp_bind. assert (K : forall (a : bool) w', w_io w' = w_io w /\ w_files w' = w_files w -> 
    wp (if negb a then ret (None, x) else
      let space := if ix_space x <=? n_entries x then (ix_space x * 12) mod SIZE_MOD / 10 + 1 else ix_space x in
      let room := if ix_space x <=? n_entries x then (space * ENTRY_SIZE) mod SIZE_MOD else space * ENTRY_SIZE in
      if room <? (n_entries x + 1) * ENTRY_SIZE then ub else
      ret (Some (length (ix_entries x)), mkIndex false space (ix_entries x ++ [mkEntry off len 0 id]) PLive))
     (fun a w' => wp (let '(r, x) := a in match r with None => ret (false, x) | Some pos => ret (true, index_or_flags x pos flags) end) (fun _ w' => w_io w' = w_io w /\ w_files w' = w_files w) (fun _ _ => True) w')
     (fun _ _ => True) w').
  { intros a w' H. destruct (negb a); [apply wp_ret, wp_ret; exact H|]. cbv zeta. destruct (_ <? _); [exact I|]. apply wp_ret, wp_ret. exact H. }
  destruct (_ <=? _).
  - apply wp_alloc; intros; apply K; auto.
  - apply wp_ret. apply K. auto.
Qed.

(** ** Local stores *)
Lemma keep_file A (m : M A) s f (Q : A -> world -> Prop) w : frame none store_ev m -> w_files w s = f -> (forall a w', w_files w' s = f -> Q a w') -> wp m Q (fun _ _ => True) w.
Proof.
  intros F Hf H. apply (wp_frame none store_ev); [exact F|]. apply wp_any; [|auto]. intros a w' (X & _). apply H. rewrite X; auto.
Qed.

Section Local.
Variables (E : env) (p : params) (D : N) (f : bytes).
Hypothesis (Hd : disc_of p D) (Hmax : p_max p <= UINT32_MAX).

Lemma estimate_le : chunk_estimate (blen f) (p_avg p) <= scan_space p (blen f).
Proof.
  unfold chunk_estimate, scan_space. pose proof (N.mod_le (12 * blen f) SIZE_MOD ltac:(discriminate)).
  destruct (N.eq_dec (p_avg p) 0) as [Hz|Hz]; [rewrite Hz; destruct ((12 * blen f) mod SIZE_MOD); cbn [N.div]; change (0 / 10) with 0; lia|].
  assert ((12 * blen f) mod SIZE_MOD / p_avg p / 10 <= 12 * blen f / p_avg p / 10) by (apply N.div_le_mono; [discriminate|]; apply N.div_le_mono; assumption). lia.
Qed.

Lemma concat_least : forall done, Forall (complete p D) done -> N.of_nat (length done) * least_chunk p <= blen (concat done).
Proof.
  induction 1 as [|c done H _ IH]; [cbn [length concat]; unfold blen; cbn [length]; lia|]. pose proof (proj1 (complete_size p D c H)) as X. fold (least_chunk p) in X.
  cbn [concat length]. rewrite blen_app. lia.
Qed.

Lemma scan_within ls w : ls_params ls = p -> w_files w (ls_ino ls) = f ->
  wp (store_scan E ls) (fun r w' => w_files w' (ls_ino ls) = f /\ ls_ino (snd r) = ls_ino ls /\ ls_params (snd r) = p /\
        ix_space (ls_idx (snd r)) <= N.max (ix_space (ls_idx ls)) (scan_space p (blen f))) (fun _ _ => True) w.
Proof.
  intros Hp Hf. apply (wp_frame none store_ev); [apply frame_store_scan; intros; exact I|].
  assert (W : wp (store_scan E ls) (fun r w' => ls_ino (snd r) = ls_ino ls /\ ls_params (snd r) = p /\
        ix_space (ls_idx (snd r)) <= N.max (ix_space (ls_idx ls)) (scan_space p (blen f))) (fun _ _ => True) w).
  { unfold store_scan. apply wp_bind, wp_trace, wp_bind, wp_fd_size; intros Hk; [|apply wp_ret; cbn [snd]; split; [reflexivity|split; [exact Hp|lia]]].
    cbn [add_trace w_files]. rewrite Hf, Hp. pose proof estimate_le as Est. apply wp_bind, wp_index_init; auto.
    2:{ intros al _ _ _. cbn [negb]. apply wp_ret. cbn [snd set_idx ls_ino ls_idx ls_params ix_space]. split; [reflexivity|split; [exact Hp|lia]]. }
    intros al _ _ _. cbn [negb]. apply wp_bind. set (x0 := mkIndex _ _ _ _). set (w1 := set_alloc _ _).
    eapply wp_mono; [apply (scan_fd_rule (store_insert_index INDEX_FLAG_VALIDATED) E p D Hd Hmax f) with (ino := ls_ino ls) (T0 := 0%nat) (zero := True)
      (Inv := fun (done : list bytes) (x : index) (w' : world) => w_files w' (ls_ino ls) = f /\ length (ix_entries x) = length done /\ ix_space x <= scan_space p (blen f))
      (Fail := fun (x : index) (w' : world) => ix_space x <= scan_space p (blen f)) (R := fun (b : bad) (w' : world) => True)|..].
    - intros done c x w' (P1 & P2 & t & P3) (I1 & I2 & I3).
      pose proof (insert_still x (blen (concat done)) (blen c) (e_H E c) INDEX_FLAG_VALIDATED w') as St. pose proof (insert_space x (blen (concat done)) (blen c) (e_H E c) INDEX_FLAG_VALIDATED) as Sp.
      eapply wp_mono; [apply (wp_gives _ _ _ _ _ _ Sp St)| |auto]. intros [ok y] w2 ((S1 & S2 & _) & S3 & S4).
      assert (Hy : ix_space y <= scan_space p (blen f)).
      { pose proof (concat_least done P1) as L. assert (Lf : N.of_nat (length done) * least_chunk p <= blen f) by (rewrite P3, !blen_app; lia).
        assert (n_entries x <= blen f / least_chunk p) by (apply N.div_le_lower_bound; [unfold least_chunk; lia|unfold n_entries; rewrite I2; lia]).
        assert (12 * n_entries x / 10 <= 12 * (blen f / least_chunk p) / 10) by (apply N.div_le_mono; [discriminate|lia]). unfold scan_space in *. lia. }
      split; [exact S3|]. cbn [fst snd]. destruct ok; [|exact Hy]. split; [congruence|]. split; [|exact Hy]. rewrite app_length, S1, I2. reflexivity.
    - intros done x w' (A & _). exact A.
    - intros done x w' e ev (A & C & G) _. split; [exact A|]. split; assumption.
    - intros done x w' ev (_ & _ & G) _. exact G.
    - auto.
    - auto.
    - split; [exact Hf|]. split; [reflexivity|exact Est].
    - lia.
    - intros [ok x] w' X. apply wp_ret. cbn [fst snd set_idx ls_ino ls_idx ls_params] in *. split; [reflexivity|]. split; [exact Hp|].
      destruct ok; [destruct X as (done & t & _ & _ & _ & _ & _ & X)|]; lia.
    - auto. }
  eapply wp_mono; [exact W| |auto]. intros r w' (A & C & G) (Q & _). rewrite Q by auto. auto.
Qed.

Lemma local_get_within id c : forall fuel ls out w, ls_params ls = p -> w_files w (ls_ino ls) = f ->
  scan_space p (blen f) <= c -> ix_space (ls_idx ls) <= c ->
  wp (local_get_loop E fuel ls id out) (fun (x : option N * bytes * lstore) _ => let '(_, _, ls') := x in ls_ino ls' = ls_ino ls /\ ls_params ls' = p /\ ix_space (ls_idx ls') <= c) (fun _ _ => True) w.
Proof.
  induction fuel as [|fuel IH]; intros ls out w Hp Hf Hc Hs; cbn [local_get_loop]; [exact I|].
  apply wp_bind. eapply wp_mono; [apply (wp_gives _ (fun r => ix_space (snd r) = ix_space (ls_idx ls)))| |].
  { apply query_space. }
  { apply (keep_file _ _ (ls_ino ls) f (fun _ w' => w_files w' (ls_ino ls) = f)); auto. apply frame_index_query. }
  2:{ auto. }
  intros [[pos|] x] w1 (X & F1); cbn [snd] in X; cbn zeta iota; [|apply wp_ret; cbn [set_idx ls_ino ls_params ls_idx]; rewrite X; auto].
  assert (Out : forall o (r : option N) w2, wp (ret (r, o, set_idx ls x)) (fun (x : option N * bytes * lstore) _ => let '(_, _, ls') := x in ls_ino ls' = ls_ino ls /\ ls_params ls' = p /\ ix_space (ls_idx ls') <= c) (fun _ _ => True) w2).
  { intros o r w2. apply wp_ret. cbn [set_idx ls_ino ls_params ls_idx]. rewrite X. auto. }
  apply wp_bind, (keep_file _ _ (ls_ino ls) f); [apply frame_index_get|exact F1|]. intros e w2 F2. destruct (_ <? _); [apply Out|].
  apply wp_bind. cbn [set_idx ls_ino]. apply (keep_file _ _ (ls_ino ls) f); [apply frame_preadall|exact F2|]. intros [ok data] w3 F3. cbv zeta. destruct (negb ok); [apply Out|]. destruct (negb _); [apply Out|].
  apply wp_bind, (keep_file _ _ (ls_ino ls) f); [apply frame_chunk_id|exact F3|]. intros a w4 F4. destruct (beq id a).
  { apply wp_ret. cbn [set_idx ls_ino ls_params ls_idx]. split; [reflexivity|]. split; [exact Hp|]. unfold index_or_flags. destruct (nth_error _ _); cbn [ix_space]; lia. }
  apply wp_bind. eapply wp_mono; [apply (wp_gives _ (fun y => ix_space y = ix_space x))| |].
  { apply cleanup_space. }
  { apply (keep_file _ _ (ls_ino ls) f (fun _ w' => w_files w' (ls_ino ls) = f)); auto. apply frame_index_cleanup. }
  2:{ auto. }
  intros y w5 (Y & F5). apply wp_bind. eapply wp_mono; [apply (scan_within (set_idx (set_idx ls x) y) w5 Hp F5)| |auto].
  intros [ok' ls'] w6 (F6 & L1 & L2 & L3). cbn [snd set_idx ls_ino ls_idx] in *. destruct (negb ok').
  - apply wp_ret. split; [exact L1|]. split; [exact L2|]. lia.
  - eapply wp_mono; [apply (IH ls'); auto; [rewrite L1; exact F6|lia]| |auto]. intros [[r o] ls2] w7 (A & C & G). split; [congruence|]. auto.
Qed.
End Local.

Lemma sideload_within E ls q w : files_ok w ->
  wp (store_sideload_index E ls q) (fun r _ => ls_ino (snd r) = ls_ino ls /\ ls_params (snd r) = ls_params ls /\
       ix_space (ls_idx (snd r)) <= N.max (ix_space (ls_idx ls)) (entries_of (file_at E w q))) (fun _ _ => True) w.
Proof.
  intros Hf. unfold store_sideload_index, file_at. destruct (e_open E q) as [ino|]; [|apply wp_ret; cbn [snd]; repeat split; lia].
  destruct (Hf ino) as (Hok & Hlim). set (h := w_files w ino) in *. apply wp_bind. pose proof (load_header_spec E ino h Hok w eq_refl Hlim) as L. unfold wp at 1.
  destruct (caibx_load_header E ino w) as [[[[cp n]|]| | |] w3]; try contradiction; auto; [|apply wp_ret; cbn [snd]; repeat split; lia].
  destruct L as (_ & V & _). assert (Hn : n <= entries_of h).
  { unfold entries_of. apply N.div_le_lower_bound; [discriminate|]. destruct V as (V & _). lia. }
  destruct (negb _); [apply wp_ret; cbn [snd]; repeat split; lia|].
  assert (G : gives (fun r => ls_ino (snd r) = ls_ino ls /\ ls_params (snd r) = ls_params ls /\ ix_space (ls_idx (snd r)) <= N.max (ix_space (ls_idx ls)) (entries_of h))
    ('(ok, x) <- index_init (ls_idx ls) n ;;
     if negb (ok : bool) then ret (false, set_idx ls x) else
     '(ok, x) <- caibx_iterate_entries (store_insert_index 0) ino cp n x ;;
     if negb (ok : bool) then x <- index_cleanup x ;; ret (false, set_idx ls x) else ret (true, set_idx ls x))).
  { eapply (gives_bind _ _ (fun r : bool * index => let '(ok, x) := r in if ok then ix_space x = n /\ ix_entries x = [] else ix_space x = ix_space (ls_idx ls))).
    { unfold index_init. skip_bind. skip_bind. destruct a0; apply gives_ret; cbn; auto. }
    intros [[|] x] H; cbn [negb]; [|apply gives_ret; cbn [snd set_idx ls_idx ls_ino ls_params]; repeat split; lia]. destruct H as (H1 & H2).
    eapply gives_bind; [apply (iterate_space ino cp n (N.to_nat n) 0 0 x); unfold n_entries; rewrite H1, H2; cbn [length]; lia|].
    intros [[|] y] Y; cbn [snd negb] in *; [apply gives_ret; cbn [snd set_idx ls_idx ls_ino ls_params]; repeat split; lia|].
    eapply gives_bind; [apply cleanup_space|]. intros z Z. cbv beta in Z. apply gives_ret. cbn [snd set_idx ls_idx ls_ino ls_params]. repeat split; lia. }
  specialize (G w3). unfold wp. match goal with |- match ?m with _ => _ end => destruct m as [[a| | |] w4] end; auto.
Qed.

Lemma new_within E p D path ip w ls w' : disc_of p D -> p_max p <= UINT32_MAX -> files_ok w -> store_local_new E path ip p w = (Ok (Some ls), w') ->
  ix_space (ls_idx ls) <= N.max (scan_space p (blen (file_at E w path))) (match ip with Some q => entries_of (file_at E w q) | None => 0 end).
Proof.
  intros Hd Hm Hf H. set (b := match ip with Some q => _ | None => 0 end).
  assert (G : wp (store_local_new E path ip p) (fun r _ => forall ls, r = Some ls -> ix_space (ls_idx ls) <= N.max (scan_space p (blen (file_at E w path))) b) (fun _ _ => True) w).
  2:{ pose proof (wp_ok _ _ _ _ _ _ _ G H) as X. exact (X ls eq_refl). }
  clear H ls w'. unfold store_local_new. apply wp_bind, wp_alloc. intros al al'. destruct (negb al); [apply wp_ret; discriminate|]. unfold file_at at 1. destruct (e_open E path) as [ino|]; [|apply wp_ret; discriminate].
  set (w1 := set_alloc al' w). set (f := w_files w ino). set (ls0 := mkLStore ino index_zero p). apply wp_bind.
  assert (S : wp (match ip with Some q => store_sideload_index E ls0 q | None => ret (false, ls0) end)
     (fun r w2 => w_files w2 ino = f /\ ls_ino (snd r) = ino /\ ls_params (snd r) = p /\ ix_space (ls_idx (snd r)) <= b) (fun _ _ => True) w1).
  { destruct ip as [q|]; [|apply wp_ret; cbn [snd ls0 ls_ino ls_params ls_idx index_zero ix_space]; repeat split; lia].
    apply (wp_frame none store_ev); [apply frame_sideload|]. eapply wp_mono; [apply (sideload_within E ls0 q w1 Hf)| |auto].
    intros r w2 (A & B & C) (Q & _). rewrite Q by auto. split; [reflexivity|]. split; [exact A|]. split; [exact B|]. unfold b. cbn [ls0 ls_idx index_zero ix_space] in C. change (file_at E w1 q) with (file_at E w q) in C. lia. }
  eapply wp_mono; [exact S| |auto]. intros [ld ls] w2 (F2 & I1 & I2 & I3). cbn [snd] in *. destruct ld; [apply wp_ret; intros ls1 X; injection X as <-; lia|].
  apply wp_bind. rewrite <- I1 in F2. eapply wp_mono; [apply (scan_within E p D f Hd Hm ls w2 I2 F2)| |auto].
  intros [ok ls'] w3 (_ & _ & _ & X). cbn [snd] in X. apply wp_ret. destruct ok; [|discriminate]. intros ls1 Y. injection Y as <-. lia.
Qed.

(** ** A run *)
Section Run.
Variables (E : env) (B : N) (p : params) (tino : nat) (w0 : world) (n : N).
Hypothesis (HE : env_ok E) (HB : responses_within E B) (Hmax : p_max p <= UINT32_MAX).

Definition same_files (w : world) : Prop := forall j, j <> tino -> w_files w j = w_files w0 j.
Definition sfit (c : N) (ss : substore) : Prop :=
  match ss_store ss with
  | SLocal ls => ls_ino ls <> tino /\ ls_params ls = p /\ (exists D, disc_of p D) /\
      ENTRY_SIZE * scan_space p (blen (w_files w0 (ls_ino ls))) <= c /\ ENTRY_SIZE * ix_space (ls_idx ls) <= c
  | SHttp hs => 11 * B <= c /\ hs_dec_cap hs <= c
  | STarget => True
  end.
Definition tfit (i : nat) (t : target) : Prop :=
  t_ino t = tino /\ (t_queryable t = false -> ix_ptr (t_idx t) = PNull) /\ (t_queryable t = true -> ix_space (t_idx t) = n /\ (length (ix_entries (t_idx t)) <= i)%nat).
Lemma tfit_more i i' t : (i <= i')%nat -> tfit i t -> tfit i' t.
Proof. intros H (X & Y & Z). split; [exact X|]. split; [exact Y|]. intros Q. destruct (Z Q). split; [assumption|lia]. Qed.
Lemma query_same x id : gives (fun r => ix_space (snd r) = ix_space x /\ ix_ptr (snd r) = ix_ptr x /\ length (ix_entries (snd r)) = length (ix_entries x)) (index_query E x id).
Proof.
  destruct HE as (_ & Hq & _). assert (L : length (ix_entries (index_sort E x)) = length (ix_entries x)) by (symmetry; apply Permutation_length, (Hq (ix_entries x))).
  unfold index_query. destruct (ix_ptr x) eqn:Ep; [|destruct (ix_sorted x); apply gives_ret; auto|apply gives_ub]. destruct (ix_entries x) eqn:Ex; [|apply gives_ub]. rewrite <- Ex in *. destruct (ix_sorted x); apply gives_ret; auto.
Qed.

Lemma files_quiet (P : tev -> Prop) w w' : quiet none P w w' -> same_files w -> same_files w'.
Proof. intros (X & _) H j Hj. rewrite X by auto. auto. Qed.
Lemma files_target (P : tev -> Prop) w w' : quiet (eq tino) P w w' -> same_files w -> same_files w'.
Proof. intros (X & _) H j Hj. rewrite X by congruence. auto. Qed.

Lemma store_fits i s a c t id out w : same_files w -> sfit c (mkSub s a) -> tfit i t ->
  wp (store_get_chunk E s t id out) (fun x w' => let '(_, _, s', t') := x in same_files w' /\ (forall a', sfit c (mkSub s' a')) /\ tfit i t') (fun _ _ => True) w.
Proof.
  intros Hw Hs Ht. apply (wp_frame none store_ev); [apply frame_store_get; intros; exact I|].
  assert (W : wp (store_get_chunk E s t id out) (fun x w' => let '(_, _, s', t') := x in (forall a', sfit c (mkSub s' a')) /\ tfit i t') (fun _ _ => True) w).
  { unfold store_get_chunk. destruct s as [ls|hs|]; cbn [sfit ss_store] in Hs.
    - destruct Hs as (S1 & S2 & (D & S3) & S4 & S5). apply wp_bind. unfold ENTRY_SIZE in *.
      assert (G : wp (store_local_get_chunk E ls id out) (fun (x : option N * bytes * lstore) _ => let '(_, _, ls') := x in ls_ino ls' = ls_ino ls /\ ls_params ls' = p /\ ix_space (ls_idx ls') <= c / 48) (fun _ _ => True) w).
      { apply (local_get_within E p D (w_files w0 (ls_ino ls)) S3 Hmax id (c / 48) (S (length (w_io w))) ls out w S2 (Hw _ S1)); apply N.div_le_lower_bound; try discriminate; assumption. }
      eapply wp_mono; [exact G| |auto]. intros [[r o] ls'] w' (A1 & A2 & A3). apply wp_ret. split; [|exact Ht]. intros a'. unfold sfit. cbn [ss_store]. rewrite A1. split; [exact S1|]. split; [exact A2|]. split; [eauto|]. split; [exact S4|].
      pose proof (N.mul_div_le c 48 ltac:(discriminate)). unfold ENTRY_SIZE. lia.
    - destruct Hs as (S1 & S2). apply wp_bind. eapply wp_mono; [apply (wp_gives _ _ _ (fun _ _ => True) (fun _ _ => True) _ (gives_http_get E B HB hs id out c S2 S1) (wp_any _ _ _ _ _ (fun _ _ => I) (fun _ _ => I)))| |auto].
      intros [[r o] hs'] w' (A & _). apply wp_ret. split; [|exact Ht]. intros a'. split; [exact S1|exact A].
    - apply wp_bind. assert (G : gives (fun x => tfit i (snd x)) (target_get_chunk E t id out)).
      { destruct Ht as (T1 & T2 & T3). unfold target_get_chunk. destruct (t_queryable t) eqn:Eq; cbn [negb]; [|apply gives_ret; split; [exact T1|]; split; intros X; cbn [snd] in *; [auto|congruence]].
        eapply gives_bind; [apply query_same|]. intros [r x] (X1 & X2 & X3). cbn [snd] in *. destruct (T3 eq_refl) as (T4 & T5).
        assert (Tx : tfit i (t_set_idx t x)) by (split; [exact T1|]; cbn [t_set_idx t_queryable t_idx]; split; [congruence|]; intros _; split; [congruence|lia]).
        destruct r as [pos|]; [|apply gives_ret; exact Tx]. skip_bind. destruct (_ <? _); [apply gives_ret; exact Tx|]. skip_bind. destruct a1 as [ok d]. destruct (negb ok); apply gives_ret; exact Tx. }
      eapply wp_mono; [apply (wp_gives _ _ _ (fun _ _ => True) (fun _ _ => True) _ G (wp_any _ _ _ _ _ (fun _ _ => I) (fun _ _ => I)))| |auto]. intros [[r o] t'] w' (A & _). apply wp_ret. split; [|exact A]. intros a'. exact I. }
  eapply wp_mono; [exact W| |auto]. intros [[[r o] s'] t'] w' (A1 & A2) Q. split; [eapply files_quiet; eauto|]. auto.
Qed.

Lemma chain_fits i id : forall l caps j t out w, same_files w -> Forall2 sfit caps l -> tfit i t ->
  wp (chain_loop E j l t id out) (fun x w' => let '(_, _, l', t') := x in same_files w' /\ Forall2 sfit caps l' /\ tfit i t') (fun _ _ => True) w.
Proof.
  induction l as [|ss l IH]; intros caps j t out w Hw Hl Ht; cbn [chain_loop]; [apply wp_ret; auto|].
  inversion Hl as [|c ? caps' ? H1 H2]; subst. destruct ss as [s a]. cbn [ss_active ss_store] in *.
  assert (Cont : forall s' a' t' out' w', same_files w' -> sfit c (mkSub s' a') -> tfit i t' -> wp (bind (chain_loop E (S j) l t' id out') (fun '(r, out, l', t) => ret (r, out, mkSub s' a' :: l', t)))
    (fun x w' => let '(_, _, l', t') := x in same_files w' /\ Forall2 sfit (c :: caps') l' /\ tfit i t') (fun _ _ => True) w').
  { intros s' a' t' out' w' X Y Z. apply wp_bind. eapply wp_mono; [apply (IH caps' (S j) t' out' w' X H2 Z)| |auto]. intros [[[r o] l'] t2] w2 (A1 & A2 & A3). apply wp_ret. split; [exact A1|]. split; [constructor; auto|exact A3]. }
  destruct a; cbn [negb]; [|now apply Cont].
  apply wp_bind, wp_trace, wp_bind. eapply wp_mono; [apply (store_fits i s true c t id out); [exact Hw|exact H1|exact Ht]| |auto].
  intros [[[r o] s'] t'] w' (A1 & A2 & A3). apply wp_bind, wp_trace. destruct r as [m|]; [destruct (0 <? m)|].
  - apply wp_ret. split; [exact A1|]. split; [constructor; auto|exact A3].
  - apply Cont; auto.
  - apply Cont; auto.
Qed.

Record HInv (caps : list N) (i : nat) (st : mstate) (w : world) : Prop := mkHInv {
  hi_files : same_files w; hi_target : tfit i (m_target st); hi_chain : exists l, m_store st = Some l /\ Forall2 sfit caps l }.
Lemma HInv_more caps i i' st w : (i <= i')%nat -> HInv caps i st w -> HInv caps i' st w.
Proof. intros H [X Y Z]. constructor; auto. eapply tfit_more; eauto. Qed.

Lemma add_fits i t len off id : N.of_nat i < n -> tfit i t -> gives (tfit (S i)) (target_add_chunk E t len off id).
Proof.
  intros Hi Ht. unfold target_add_chunk. destruct (t_queryable t) eqn:Eq; cbn [negb]; [|apply gives_ret, (tfit_more i); [lia|exact Ht]].
  destruct Ht as (T1 & T2 & T3). destruct (T3 Eq) as (T4 & T5). eapply gives_bind; [apply query_same|]. intros [r x] (X1 & X2 & X3). cbn [snd] in *.
  destruct r as [pos|]; [apply gives_ret; split; [exact T1|]; cbn [t_set_idx t_queryable t_idx]; split; [congruence|]; intros _; split; [congruence|lia]|].
  assert (G : gives (fun r => ix_space (snd r) = n /\ (length (ix_entries (snd r)) <= S i)%nat) (index_insert x off len id)).
  { unfold index_insert. skip_bind. destruct (ix_ptr x); [apply gives_abort| |apply gives_ub].
    assert (ix_space x <=? n_entries x = false) as -> by (unfold n_entries; lia). skip_bind. destruct (negb _); [apply gives_ret; cbn [snd]; split; [congruence|lia]|]. cbv zeta. destruct (_ <? _); [apply gives_ub|].
    apply gives_ret. cbn [snd ix_space ix_entries]. rewrite app_length. cbn [length]. split; [congruence|lia]. }
  eapply gives_bind; [exact G|]. intros [r y] (Y1 & Y2). cbn [snd] in *. apply gives_ret. split; [exact T1|]. cbn [t_set_idx t_queryable t_idx]. split; [congruence|]. auto.
Qed.

Lemma progress_fits m caps i st w : HInv caps i st w -> wp (entry_progress E m st) (fun r w' => HInv caps i (snd r) w') (fun _ _ => True) w.
Proof.
  intros [X Y Z]. unfold entry_progress. destruct (e_interactive E); [|apply wp_ret; constructor; auto]. cbv zeta. apply wp_bind, wp_trace, wp_ret. constructor; auto.
Qed.

Lemma fetch_fits m caps i st w off len id : N.of_nat i < n -> HInv caps i st w ->
  wp (entry_fetch_write E m off len id st) (fun r w' => HInv caps (S i) (snd r) w') (fun _ _ => True) w.
Proof.
  intros Hi HI. unfold entry_fetch_write.
  assert (HW : forall st w, HInv caps i st w -> wp (bind (target_write E (m_target st) (m_buf st) len off id) (fun '(ok, t) =>
        let st := m_set st (m_store st) t (m_last_id st) (m_resuming st) (m_buf st) in
        if negb (ok : bool) then ret (false, st) else entry_progress E m st))
     (fun r w' => HInv caps (S i) (snd r) w') (fun _ _ => True) w).
  { clear st w HI. intros st w [X Y Z]. apply wp_bind. assert (Ti : t_ino (m_target st) = tino) by apply Y.
    assert (G : gives (fun r => tfit (S i) (snd r)) (target_write E (m_target st) (m_buf st) len off id)).
    { unfold target_write. destruct (_ <? _); [apply gives_ub|]. skip_bind. skip_bind. destruct (negb a0); [apply gives_ret, (tfit_more i); [lia|exact Y]|].
      eapply gives_bind; [apply (add_fits i); auto|]. intros t' Ht. apply gives_ret. exact Ht. }
    eapply wp_mono; [apply (wp_gives _ _ _ (fun _ w' => same_files w') (fun _ _ => True) w G)| |auto].
    - apply (wp_frame (eq tino) (fun _ => True)); [apply frame_target_write; auto|]. apply wp_any; [|auto]. intros a w' Q. eapply files_target; eauto.
    - intros [ok t] w' (Ht & Hw). cbn [snd] in Ht. cbv zeta. assert (HI : HInv caps (S i) (m_set st (m_store st) t (m_last_id st) (m_resuming st) (m_buf st)) w') by (constructor; auto).
      destruct (negb ok); [apply wp_ret; exact HI|]. now apply progress_fits. }
  destruct (match m_last_id st with Some _ => _ | None => false end).
  - apply wp_bind, wp_ret. cbn [negb]. now apply HW.
  - destruct HI as [X Y (l & L1 & L2)]. rewrite L1. apply wp_bind, wp_bind. eapply wp_mono; [apply (chain_fits i id l caps 0 (m_target st) (m_buf st) w X L2 Y)| |auto].
    intros [[[r buf] ch] t] w' (A1 & A2 & A3). assert (HI : forall l b, HInv caps i (m_set st (Some ch) t l (m_resuming st) b) w') by (intros; constructor; [exact A1|exact A3|exists ch; auto]).
    destruct (match r with Some _ => _ | None => false end); apply wp_ret; cbn [negb].
    + apply HW, HI.
    + apply wp_ret. cbn [snd]. apply (HInv_more caps i); [lia|]. apply HI.
Qed.

Lemma entry_fits m caps i st w off len id : N.of_nat i < n -> HInv caps i st w ->
  wp (entry_cb E m off len id st) (fun r w' => HInv caps (S i) (snd r) w') (fun _ _ => True) w.
Proof.
  intros Hi HI. unfold entry_cb. destruct (m_resuming st); [|now apply fetch_fits]. destruct (_ <? _); [apply wp_ret, (HInv_more caps i); [lia|exact HI]|].
  destruct HI as [X Y Z]. apply wp_bind.
  assert (G : gives (fun r : option bool * bytes * target => let '(q, _, t) := r in tfit (S i) t /\ (q <> Some true -> tfit i t)) (target_check_chunk E (m_target st) (m_buf st) len off id)).
  { assert (Y' : tfit (S i) (m_target st)) by (apply (tfit_more i); [lia|exact Y]).
    unfold target_check_chunk. skip_bind. destruct a as [ok d]. cbv zeta. destruct (negb ok); [apply gives_ret; auto|]. skip_bind. destruct (negb _); [apply gives_ret; auto|].
    eapply gives_bind; [apply (add_fits i); auto|]. intros t' Ht. apply gives_ret. split; [exact Ht|]. intros K. elim K. reflexivity. }
  eapply wp_mono; [apply (wp_gives _ _ _ (fun _ w' => same_files w') (fun _ _ => True) w G)| |auto].
  - apply (wp_frame none (fun _ => True)); [apply frame_check_chunk|]. apply wp_any; [|auto]. intros a w' Q. eapply files_quiet; eauto.
  - intros [[r tmp] t] w' ((T1 & T2) & Hw). destruct r as [[|]|].
    + apply progress_fits. constructor; auto.
    + apply fetch_fits; [exact Hi|]. constructor; auto. apply T2. discriminate.
    + apply fetch_fits; [exact Hi|]. constructor; auto. apply T2. discriminate.
Qed.

Lemma fits_bytes caps l : Forall2 sfit caps l -> sum_of (map (fun ss => store_bytes (ss_store ss)) l) <= sum_of caps.
Proof.
  induction 1 as [|c ss caps l H _ IH]; [cbn; lia|]. cbn [map sum_of fold_right]. fold (sum_of caps). fold (sum_of (map (fun ss => store_bytes (ss_store ss)) l)).
  assert (store_bytes (ss_store ss) <= c); [|lia]. unfold sfit in H. destruct (ss_store ss) as [ls|hs|]; cbn [store_bytes]; [|lia|lia]. unfold index_bytes. destruct (ix_ptr (ls_idx ls)); lia.
Qed.
Lemma HInv_bytes caps i st w : HInv caps i st w -> heap_bytes st <= ENTRY_SIZE * n + sum_of caps.
Proof.
  intros [_ (_ & Y1 & Y2) (l & L1 & L2)]. unfold heap_bytes. rewrite L1. pose proof (fits_bytes _ _ L2).
  assert (index_bytes (t_idx (m_target st)) <= ENTRY_SIZE * n); [|lia]. unfold index_bytes. destruct (t_queryable (m_target st)).
  - destruct (Y2 eq_refl) as (-> & _). destruct (ix_ptr _); lia.
  - rewrite Y1 by reflexivity. lia.
Qed.
End Run.

(** A target that is not used as a store has no array. *)
Definition bare (t : target) : Prop := t_queryable t = false -> ix_ptr (t_idx t) = PNull.
Lemma bare_append E tp cp n b a : bare (b_target b) -> gives (fun r => match r with Some b' => bare (b_target b') | None => True end) (append_store_from_arg E tp cp n b a).
Proof.
  intros H. unfold append_store_from_arg. eapply gives_bind with (J := fun r => match r with Some (s, t) => bare t | None => True end).
  - destruct (classify_arg tp a).
    + eapply gives_bind with (J := fun r => fst r = true -> bare (snd r)).
      * unfold target_as_store. destruct (t_queryable _) eqn:Eq; [now apply gives_ret|]. skip_bind. destruct a0 as [ok x]. destruct (negb ok); apply gives_ret; discriminate.
      * intros [ok t] X. cbn [fst snd] in X. apply gives_ret. destruct ok; auto.
    + skip_bind. apply gives_ret. destruct a0; auto.
    + skip_bind. apply gives_ret. destruct a0; auto.
  - intros [[s t]|] X; [|now apply gives_ret]. skip_bind. destruct a0 as [[ok sp] ch]. apply gives_ret. destruct ok; auto.
Qed.
Lemma bare_appends E tp cp n : forall args b, bare (b_target b) -> gives (fun r => match r with Some b' => bare (b_target b') | None => True end) (append_stores E tp cp n b args).
Proof.
  induction args as [|a args IH]; intros b H; cbn [append_stores]; [now apply gives_ret|]. eapply gives_bind; [apply bare_append, H|]. intros [b'|] X; [|now apply gives_ret]. now apply IH.
Qed.
Lemma bare_opts E tp cp n : forall os b, bare (b_target b) -> gives (fun r => match r with OptsDone b' | OptsHelp b' => bare (b_target b') | _ => True end) (casync_opts E tp cp n b os).
Proof.
  induction os as [|o os IH]; intros b H; cbn [casync_opts]; [now apply gives_ret|]. destruct o; auto; try (now apply gives_ret).
  eapply gives_bind; [apply bare_append, H|]. intros [b'|] X; [|now apply gives_ret]. now apply IH.
Qed.
Lemma bare_new E tp : gives (fun r => match r with Some t => bare t | None => True end) (target_new E tp).
Proof. unfold target_new. skip_bind. destruct (negb a); [now apply gives_ret|]. destruct (e_open_rw E tp); now apply gives_ret. Qed.

Lemma bare_init E argv : gives (fun r => match r with InitOk su => bare (su_target su) | _ => True end) (init E argv).
Proof.
  unfold init. destruct (beq _ (bs "csn")).
  - unfold csn. destruct argv as [|a0 [|ip [|tp [|a3 args]]]]; try (now apply gives_ret). skip_bind. destruct (negb a); [now apply gives_ret|].
    destruct (e_open E ip); [|now apply gives_ret]. skip_bind. destruct a1 as [[cp n0]|]; [|now apply gives_ret]. eapply gives_bind; [apply bare_new|]. intros [t|] Ht; [|now apply gives_ret].
    skip_bind. destruct a1 as [sp|]; [|now apply gives_ret]. eapply gives_bind; [apply bare_appends; exact Ht|].
    intros [bd|] Hb; now apply gives_ret.
  - destruct (beq _ (bs "casync")); [|now apply gives_ret]. unfold casync. cbv zeta. destruct (Nat.ltb _ _); [now apply gives_ret|].
    destruct (e_open E _); [|now apply gives_ret]. skip_bind. destruct a as [[cp n0]|]; [|now apply gives_ret]. eapply gives_bind; [apply bare_new|]. intros [t|] Ht; [|now apply gives_ret].
    skip_bind. destruct a as [sp|]; [|now apply gives_ret]. destruct (getopt_all (skipn 1 argv)) as [os ns].
    eapply gives_bind; [apply bare_opts; exact Ht|]. intros [bd|bd| |] Hb; try (now apply gives_ret).
    destruct (_ || _); now apply gives_ret.
Qed.

Lemma memory_within E argv w B k st w' : sane E argv w -> responses_within E B -> state_after E argv k w = (Ok (Some st), w') ->
  exists iino p n, e_open E (cmd_index argv) = Some iino /\ valid_index (w_files w iino) p n /\
    heap_bytes st <= ENTRY_SIZE * n + sum_of (map (arg_bytes E w (cmd_target argv) p B) (cmd_stores argv)).
Proof.
  intros HS HB Hm.
  assert (G : wp (state_after E argv k) (fun r _ => forall st, r = Some st -> exists iino p n, e_open E (cmd_index argv) = Some iino /\ valid_index (w_files w iino) p n /\
    heap_bytes st <= ENTRY_SIZE * n + sum_of (map (arg_bytes E w (cmd_target argv) p B) (cmd_stores argv))) (fun _ _ => True) w).
  2:{ pose proof (wp_ok _ _ _ _ _ _ _ G Hm) as H. apply (H _ eq_refl). }
  clear Hm st w'. unfold state_after. apply wp_bind. eapply wp_mono; [apply (wp_gives _ _ _ _ _ _ (bare_init E argv) (wp_init E false argv w HS ltac:(discriminate)))| |auto].
  intros [su| |c] w1 (Hbare & wk & Hk & Q & HR); try (apply wp_ret; discriminate).
  pose proof (ready_files _ _ _ _ _ _ _ Hk HR) as Hfil. destruct HS as [HE Hsv Hes Hf Hargs Hhelp Hix Hal Hd]. destruct HR as [R1 R2 R3 R4 R5 R6 R7 (l & R8 & R9 & R10)].
  set (tp := cmd_target argv) in *. set (p := su_params su) in *. set (f := w_files w (su_index su)) in *. set (n := N.to_nat (su_n su)) in *. set (tino := t_ino (su_target su)) in *.
  assert (Hn : su_n su = N.of_nat n) by (unfold n; lia). set (caps := map (arg_bytes E w tp p B) (cmd_stores argv)).
  assert (Hmax : p_max p <= UINT32_MAX) by (destruct R4 as (_ & _ & _ & _ & _ & _ & _ & _ & V & _); unfold UINT32_MAX; change (2 ^ 32) with 4294967296 in V; lia).
  assert (Hne : su_index su <> tino) by (intros Heq; apply (Hix tino R3); rewrite R2; congruence).
  assert (Hlen : (64 + 40 * n <= length f)%nat) by (eapply valid_length; eauto). destruct (Hf (su_index su)) as (Hok & Hlim). fold f in Hok, Hlim.
  assert (H0 : HInv B p tino w (su_n su) caps 0 (initial_mstate su) w1).
  { unfold initial_mstate. constructor; cbn [m_target m_store].
    - intros j _. apply Hfil.
    - split; [reflexivity|]. split; [exact Hbare|]. intros Eq. destruct (R6 Eq) as (_ & X & _ & Y). split; [exact Y|]. rewrite X. cbn. lia.
    - exists l. split; [exact R8|]. unfold caps. clear caps R6 R7 R8.
      assert (Each : forall arg ss, In arg (cmd_stores argv) -> sub_ok E false w1 (su_target su) ss -> made E w tp p arg ss -> sfit B p tino w (arg_bytes E w tp p B arg) ss).
      { intros arg ss _ Ok (M1 & M2). specialize (Ok M1). unfold sfit, arg_bytes. unfold store_ok in Ok. destruct (classify_arg tp arg) as [|u|path ip], (ss_store ss) as [ls|hs|]; try contradiction; auto.
        - destruct M2 as (wa & _ & url & ps & _ & _ & _ & _ & Dc & _). rewrite Dc. lia.
        - destruct M2 as (O1 & O2 & _ & wa & wb & F1 & _ & _ & New). destruct Ok as (K1 & (D & K2) & _). rewrite O2 in K2. fold tino in K1.
          split; [exact K1|]. split; [exact O2|]. split; [eauto|].
          assert (Fa : files_ok wa) by (intros q; rewrite F1; apply Hf). pose proof (new_within E p D path ip wa ls wb K2 Hmax Fa New) as X.
          assert (Fe : forall q, file_at E wa q = file_at E w q) by (intros q; unfold file_at; destruct (e_open E q); auto).
          assert (Fp : file_at E w path = w_files w (ls_ino ls)) by (unfold file_at; now rewrite O1).
          rewrite Fe in X. unfold ENTRY_SIZE. rewrite <- Fp. split; [lia|]. destruct ip as [q|]; [rewrite Fe in X|]; lia. }
      assert (Go : forall args l, incl args (cmd_stores argv) -> Forall (sub_ok E false w1 (su_target su)) l -> Forall2 (made E w tp p) args l -> Forall2 (sfit B p tino w) (map (arg_bytes E w tp p B) args) l).
      { induction args as [|a args IH]; intros l0 Hin Hok0 F; inversion F as [|x y xs ys F1 F2]; subst; cbn [map]; constructor; inversion Hok0; subst.
        - apply Each; auto. apply Hin. now left.
        - apply IH; auto. intros z Hz. apply Hin. now right. }
      apply Go; auto. apply incl_refl. }
  assert (Fin : forall i st w2, HInv B p tino w (su_n su) caps i st w2 -> exists iino p n, e_open E (cmd_index argv) = Some iino /\ valid_index (w_files w iino) p n /\
    heap_bytes st <= ENTRY_SIZE * n + sum_of (map (arg_bytes E w tp p B) (cmd_stores argv))).
  { intros i st w2 HI. exists (su_index su), p, (su_n su). split; [exact R2|]. split; [exact R4|]. eapply HInv_bytes; eauto. }
  assert (HIo : forall i st w2 ev, HInv B p tino w (su_n su) caps i st w2 -> HInv B p tino w (su_n su) caps i st (set_io ev w2)) by (intros i st w2 ev [X Y Z]; constructor; auto).
  apply wp_bind. fold n. rewrite Hn. change 0 with (N.of_nat 0) at 1.
  eapply wp_mono; [apply (iterate_prefix_rule (entry_cb E (N.of_nat n)) (su_index su) p f n Hok Hlen Hlim
     (fun i _ st w2 => HInv B p tino w (su_n su) caps i st w2) (fun st _ => exists iino p n, e_open E (cmd_index argv) = Some iino /\ valid_index (w_files w iino) p n /\
    heap_bytes st <= ENTRY_SIZE * n + sum_of (map (arg_bytes E w tp p B) (cmd_stores argv))) (fun _ _ => True))|..].
  - intros i last st w2 HI. rewrite (hi_files _ _ _ _ _ _ _ _ _ HI) by exact Hne. reflexivity.
  - intros i last st w2 ev Hi HI Hs _. pose proof (HIo _ _ _ ev HI) as HI'. destruct (skipped _ _ _ _ _); [apply (HInv_more B p tino w (su_n su) Hmax caps i (S i) st (set_io ev w2)); [lia|exact HI']|].
    eapply wp_mono; [apply (entry_fits E B p tino w (su_n su) HE HB Hmax (N.of_nat n) caps i st (set_io ev w2)); [lia|exact HI']| |auto].
    intros [ok st'] w3 X. cbn [fst snd] in *. destruct ok; [exact X|]. eapply Fin; eauto.
  - intros i last st w2 ev Hi HI Hs _. eapply Fin; eauto.
  - auto.
  - lia.
  - exact H0.
  - intros [ok st] w2 X. cbn [fst snd] in X. apply wp_ret. intros st' Est. injection Est as <-. destruct ok; [|exact X]. destruct X as (last & X). eapply Fin; eauto.
  - auto.
Qed.
