(** Where the data of a run comes from. *)
From Coq Require Import Sorting.Permutation.
From Verif Require Import Base Lib Utils Sha Encrypt Chunker Caibx Index StoreLocal Target StoreHttp Chain Ui MainProg
  SpecBasic SpecCrypto SpecEnv SpecChunker SpecStore SpecHttp SpecCaibx SpecMain SpecRun SpecOrder SpecSource
  PfUtils PfBasic PfIO PfRead PfIndex PfFrame PfLocal PfHttp PfCaibx PfTarget PfChain PfMain PfMain2 PfSetup PfRun PfSource.
Local Open Scope N_scope.

(** ** The stores *)
Lemma slice_N_split a n (f : bytes) : a + n <= blen f -> exists before after, f = before ++ slice_N a n f ++ after.
Proof.
  intros H. exists (firstn (N.to_nat a) f), (skipn (N.to_nat n) (skipn (N.to_nat a) f)). unfold slice_N. rewrite firstn_skipn. symmetry. apply firstn_skipn.
Qed.
Lemma answered_slice err es f id out n out' : answered err es f id out (Some n) out' -> 0 < n -> exists before after, f = before ++ firstn (N.to_nat n) out' ++ after.
Proof.
  intros A Hn. remember (Some n) as r eqn:Er. destruct A as [|e|e k|e H1 H2 H3 H4 H5]; try discriminate; injection Er as <-; [lia|].
  rewrite firstn_overlay by (unfold blen in *; lia). apply slice_N_split. lia.
Qed.
Lemma got_slice E b D f ls id out w n out' ls' tr : got E b D f ls id out w (Some n, out', ls') tr -> 0 < n -> exists before after, f = before ++ firstn (N.to_nat n) out' ++ after.
Proof.
  intros G Hn. remember (Some n, out', ls') as res eqn:Er. destruct G; inversion Er; subst; eapply answered_slice; eauto.
Qed.

Lemma target_gives E bound b t id out w : qsort_ok E -> bsearch_ok E -> tgt_ok E b (w_files w (t_ino t)) bound t ->
  wp (target_get_chunk E t id out) (fun x w' => let '(r, out', t') := x in forall n, r = Some n -> 0 < n ->
     t_queryable t = true /\ exists e, In e (entries t) /\ en_id e = id /\ firstn (N.to_nat n) out' = slice_N (en_start e) (en_len e) (w_files w (t_ino t))) (fun _ _ => True) w.
Proof.
  intros Hq Hb Hok. unfold target_get_chunk. destruct (t_queryable t) eqn:Et; cbn [negb].
  2:{ apply wp_ret. intros n Hn. injection Hn as <-. lia. }
  destruct (Hok Et) as (Hx & Hg). apply wp_bind, wp_index_query; auto.
  - intros pos x' e Hx' P N1 N2. apply wp_bind. eapply wp_index_get; [exact N1|].
    assert (He : In e (entries t)) by (eapply Permutation_in; [symmetry; exact P|eapply nth_error_In; eauto]).
    destruct (blen out <? en_len e); [apply wp_ret; discriminate|]. apply wp_bind, wp_pread_cost; cbn [t_ino t_set_idx].
    + intros ev Hs Hr Ho Hd Ht. cbn [negb]. apply wp_ret. intros n Hn _. injection Hn as <-. split; [reflexivity|]. exists e. split; [exact He|]. split; [exact N2|].
      apply firstn_overlay. unfold blen in Hd. lia.
    + intros ev n Hs Hn Hln _ _. cbn [negb]. apply wp_ret. discriminate.
    + auto.
  - intros x' Hx' P Hno. apply wp_ret. intros n Hn. injection Hn as <-. lia.
Qed.

Section Supply.
Variables (E : env) (b : bool) (files0 : nat -> bytes) (L : nat) (Sup : bytes -> bytes -> Prop) (KS : store -> Prop).
Hypothesis (HE : env_ok E) (Hsv : server_ok E).
Hypothesis Hkind : forall s s', same_kind s s' -> KS s -> KS s'.
Hypothesis Hlocal : forall ls id D before after, KS (SLocal ls) -> files0 (ls_ino ls) = before ++ D ++ after -> Sup id D.
Hypothesis Hhttp : forall hs, KS (SHttp hs) -> (forall k, hs_key hs = Some k -> length k = 32%nat /\ bytes_ok k) /\ forall id D, gave E (hs_base hs) (hs_key hs) L id D -> Sup id D.

Definition tgt_sup (g : bytes) (t : target) : Prop := t_queryable t = true -> forall e, In e (entries t) -> Sup (en_id e) (slice_N (en_start e) (en_len e) g).
Definition ksubs (l : list substore) : Prop := Forall (fun ss => KS (ss_store ss)) l.
Definition same_files (tino : nat) (w : world) : Prop := forall k, k <> tino -> w_files w k = files0 k.
Lemma tgt_sup_same g t t' : same_target t t' -> tgt_sup g t -> tgt_sup g t'.
Proof. intros (_ & A & P) H Hq e He. rewrite A in Hq. apply H; [exact Hq|]. eapply Permutation_in; [symmetry; exact P|exact He]. Qed.
Lemma ksubs_same l l' : Forall2 same_sub l l' -> ksubs l -> ksubs l'.
Proof. induction 1 as [|x y l l' (H & _) _ IH]; intros K; inversion K; subst; constructor; eauto. apply IH. assumption. Qed.

Lemma sup_store_get bound s t id out w :
  length id = 32%nat -> bytes_ok id -> length out = L -> hash_mode b w -> tgt_ok E b (w_files w (t_ino t)) bound t -> store_ok E b w t s ->
  KS s -> tgt_sup (w_files w (t_ino t)) t -> same_files (t_ino t) w ->
  wp (store_get_chunk E s t id out) (fun x w' => let '(r, out', s', t') := x in forall n, r = Some n -> 0 < n -> Sup id (firstn (N.to_nat n) out')) (fun _ _ => True) w.
Proof.
  destruct HE as (HH & Hq & Hb & Hz). intros Lid Hid Lo Hm Ht Hs HK HT HF. unfold store_get_chunk. destruct s as [ls|hs|]; apply wp_bind.
  - cbn in Hs. destruct Hs as (A & (D & HD) & Hmax & Hlen & Hls). apply wp_local_get with (b := b) (D := D); auto.
    intros [[r out'] ls'] tr w' Q Htr G. apply wp_ret. intros n -> Hn. destruct (got_slice _ _ _ _ _ _ _ _ _ _ _ _ G Hn) as (x & y & Ef).
    eapply Hlocal; [exact HK|]. rewrite <- HF by exact A. exact Ef.
  - destruct (Hhttp hs HK) as (K1 & K2). eapply wp_mono; [apply (http_gives E hs id out w Hz Hsv Hs Lid Hid K1)| |auto].
    intros [[r out'] hs'] w' G. apply wp_ret. intros n Hr Hn. apply K2. rewrite <- Lo. now apply G.
  - eapply wp_mono; [apply (target_gives E bound b t id out w Hq Hb Ht)| |auto]. intros [[r out'] t'] w' G. apply wp_ret. intros n Hr Hn.
    destruct (G n Hr Hn) as (G1 & e & G2 & <- & ->). now apply HT.
Qed.

Lemma sup_chain bound id : length id = 32%nat -> bytes_ok id -> forall l i t out w,
  length out = L -> hash_mode b w -> tgt_ok E b (w_files w (t_ino t)) bound t -> bound <= blen (w_files w (t_ino t)) -> Forall (sub_ok E b w t) l ->
  ksubs l -> tgt_sup (w_files w (t_ino t)) t -> same_files (t_ino t) w ->
  wp (chain_loop E i l t id out) (fun x w' => let '(r, out', l', t') := x in forall n, r = Some n -> 0 < n -> Sup id (firstn (N.to_nat n) out')) (fun _ _ => True) w.
Proof.
  intros Lid Hid. induction l as [|ss l IH]; intros i t out w Lo Hm Ht Hbd Hl HK HT HF; cbn [chain_loop].
  - apply wp_ret. intros n Hn. injection Hn as <-. lia.
  - pose proof (Forall_inv Hl) as H1. pose proof (Forall_inv_tail Hl) as H2. pose proof (Forall_inv HK) as K1. pose proof (Forall_inv_tail HK) as K2. destruct (ss_active ss) eqn:Ea; cbn [negb].
    2:{ apply wp_bind. eapply wp_mono; [apply IH; auto| |auto]. intros [[[r out'] l'] t'] w' A. apply wp_ret. exact A. }
    apply wp_bind, wp_trace, wp_bind. set (w1 := add_trace _ w).
    eapply wp_mono; [apply (wp_conj _ _ _ _ _ _ _ (sup_store_get bound (ss_store ss) t id out w1 Lid Hid Lo Hm Ht (H1 Ea) K1 HT HF)
       (wp_store_get E b HE Hsv bound (ss_store ss) t id out w1 Lid Hm Ht Hbd (H1 Ea)))| |auto].
    intros [[[r out'] s'] t'] w0' (S1 & Q & (A & _) & So & K & ST & I). cbn [fst snd] in A. apply wp_bind, wp_trace. set (w' := add_trace _ w0').
    assert (F : forall j, w_files w' j = w_files w j) by (intros j; apply (quiet0_files _ _ Q)).
    assert (Hino : t_ino t' = t_ino t) by apply ST.
    assert (IH' : forall st a, wp ('(r, out2, l', t2) <- chain_loop E (S i) l t' id out';; ret (r, out2, mkSub st a :: l', t2))
       (fun x w2 => let '(r, out2, l', t2) := x in forall n, r = Some n -> 0 < n -> Sup id (firstn (N.to_nat n) out2)) (fun _ _ => True) w').
    { intros st a. apply wp_bind. eapply wp_mono; [apply IH| |auto].
      - now rewrite A.
      - exact (quiet0_mode _ _ _ Q Hm).
      - rewrite F, Hino. eapply tgt_ok_same; eauto.
      - rewrite F, Hino. exact Hbd.
      - eapply subs_ok_stable; [| |exact H2]; auto.
      - exact K2.
      - rewrite F, Hino. eapply tgt_sup_same; eauto.
      - rewrite Hino. intros k Hk. rewrite F. now apply HF.
      - intros [[[r2 out2] l2] t2] w2 G. apply wp_ret. exact G. }
    destruct r as [n|]; [destruct (0 <? n) eqn:En|]; [|apply IH'|apply IH'].
    apply wp_ret. intros k Hk. now apply S1.
Qed.
End Supply.

(** ** One entry *)
Section Entry.
Variables (E : env) (b : bool) (f : bytes) (n tino : nat) (w0 : world) (Sup : bytes -> bytes -> Prop) (KS : store -> Prop).
Hypothesis (HE : env_ok E) (Hsv : server_ok E) (Hwf : well_formed f n) (Hok : bytes_ok f) (Hlen : (64 + 40 * n <= length f)%nat) (Hlim : blen f < OFF_LIMIT).
Notation g0 := (w_files w0 tino).
Hypothesis Hkind : forall s s', same_kind s s' -> KS s -> KS s'.
Hypothesis Hlocal : forall ls id D before after, KS (SLocal ls) -> w_files w0 (ls_ino ls) = before ++ D ++ after -> Sup id D.
Hypothesis Hhttp : forall hs, KS (SHttp hs) -> (forall k, hs_key hs = Some k -> length k = 32%nat /\ bytes_ok k) /\ forall id D, gave E (hs_base hs) (hs_key hs) (N.to_nat BUF_SIZE) id D -> Sup id D.
Hypothesis Hold : forall j, (j < n)%nat -> (forall i, (i <= j)%nat -> holds E b f i g0) -> Sup (ent_id f j) (ent_slice f j g0).

Definition put_from (D : bytes) (ino : nat) (o : N) : Prop :=
  D <> [] -> ino = tino /\ exists j, (j < n)%nat /\ o = ent_start f j /\ length D = N.to_nat (ent_size f j) /\ Sup (ent_id f j) D.
Definition put_ok (ev : tev) : Prop := match ev with TPut ino o D => put_from D ino o | _ => True end.
Definition puts (w : world) : Prop := exists tr, w_trace w = tr ++ w_trace w0 /\ Forall put_ok tr.
Lemma puts_quiet S (P : tev -> Prop) w w' : (forall ev, P ev -> put_ok ev) -> quiet S P w w' -> puts w -> puts w'.
Proof.
  intros HP (_ & _ & _ & _ & tr & T & F) (tr0 & T0 & F0). exists (tr ++ tr0). split; [now rewrite T, T0, app_assoc|]. apply Forall_app. split; [|exact F0].
  eapply Forall_impl; [|exact F]. exact HP.
Qed.
Record X (i : nat) (st : mstate) (w : world) : Prop := mkX {
  x_stores : exists l, m_store st = Some l /\ ksubs KS l;
  x_tgt : tgt_sup Sup (w_files w tino) (m_target st);
  x_buf : forall j, i = S j -> m_last_id st = Some (ent_id f j) -> 0 < ent_size f j -> Sup (ent_id f j) (firstn (N.to_nat (ent_size f j)) (m_buf st));
  x_puts : puts w;
  x_done : forall j, (j < i)%nat -> 0 < ent_size f j -> Sup (ent_id f j) (ent_slice f j (w_files w tino));
  x_old : m_resuming st = true -> w_files w tino = g0 /\ forall j, (j < i)%nat -> holds E b f j g0 }.
Lemma X_io i st w ev : X i st w -> X i st (set_io ev w). Proof. intros []. constructor; auto. Qed.

Lemma added_sup g g' bound off len id fails t t' : tgt_ok E b g bound t -> tgt_sup Sup g t -> added off len id fails t t' ->
  (forall s l, s + l <= bound -> slice_N s l g' = slice_N s l g) -> (0 < len -> Sup id (slice_N off len g')) -> tgt_sup Sup g' t'.
Proof.
  intros Ht Hs (A1 & A2 & A3) Hg Hn Hq e He. rewrite A2 in Hq. rewrite Hq in A3. destruct A3 as (_ & _ & A3 & _). destruct (A3 e He) as [He'|(-> & Hp)].
  - destruct (Ht Hq) as (_ & T). destruct (T e He') as (_ & T2 & _). rewrite Hg by exact T2. now apply Hs.
  - cbn. auto.
Qed.

Lemma sup_write m i st w : (i < n)%nat -> MCore E b f n tino w0 i st w -> buffered E b f i st -> X i st w ->
  (0 < ent_size f i -> Sup (ent_id f i) (firstn (N.to_nat (ent_size f i)) (m_buf st))) ->
  wp (write_program E f m i st) (fun r w' => puts w' /\ (fst r = true -> X (S i) (snd r) w')) (fun _ w' => puts w') w.
Proof.
  intros Hi HC (B1 & B2 & B3 & B4) HX HS. destruct HE as (HH & Hq & Hb & Hz). pose proof (MCore_queryable E b f n tino w0 Hlen Hlim _ _ _ HC) as Hqu.
  destruct HC as [C1 C2 C3 C4 C5 C6 C7 C8 C9 C10 _ C13 C14]. destruct HX as [X1 X2 X3 X4 X5 X6].
  unfold write_program. set (D := firstn (N.to_nat (ent_size f i)) (m_buf st)) in *.
  assert (LD : length D = N.to_nat (ent_size f i)) by (unfold D; rewrite firstn_length; unfold blen in *; lia).
  assert (Ho : (N.to_nat (ent_start f i) <= length (w_files w tino))%nat) by (destruct C7 as (C7 & _); unfold blen in *; lia).
  assert (PW : forall k w', wrote tino (ent_start f i) D k w w' -> puts w').
  { intros k w' (_ & _ & _ & _ & Q). eapply puts_quiet; [|exact Q|exact X4]. intros [] He; cbn in He |- *; auto.
    destruct He as (-> & -> & ->). intros Hne. split; [reflexivity|]. exists i. split; [exact Hi|]. split; [reflexivity|]. split; [exact LD|]. apply HS.
    destruct D; [congruence|]. cbn in LD. lia. }
  apply wp_bind. apply wp_target_write; auto; [unfold blen in *; lia| | |]; rewrite ?C8; fold D.
  - intros t' w' W _ Had. cbn [negb]. apply wp_progress. intros h tr Htr. cbn [m_store m_target m_last_id m_resuming m_buf m_set m_skipped fst snd].
    set (w2 := mkWorld _ _ _ _ _ _ _).
    assert (P2 : puts w2).
    { eapply puts_quiet; [|apply (quiet_progress none (fun ev => put_ok ev) w' tr (fun _ => I) Htr)|exact (PW _ _ W)]. auto. }
    split; [exact P2|]. intros _. destruct W as (_ & W1 & _). rewrite firstn_all in W1.
    assert (Hn : 0 < ent_size f i -> Sup (ent_id f i) (slice_N (ent_start f i) (ent_size f i) (w_files w' tino))).
    { intros Hp. rewrite W1, slice_N_slice, <- LD, slice_fw_at by exact Ho. auto. }
    constructor; cbn [m_store m_target m_buf m_resuming m_last_id]; auto; change (w_files w2) with (w_files w').
    + eapply added_sup; [exact C9|exact X2|exact Had| |exact Hn].
      intros s k Hs. rewrite W1, !slice_N_slice. apply slice_fw_before; [exact Ho|lia].
    + intros j Hj _ Hp. injection Hj as <-. now apply HS.
    + intros j Hj Hp. destruct (Nat.eq_dec j i) as [->|Hne].
      * specialize (Hn Hp). rewrite slice_N_slice in Hn. exact Hn.
      * unfold ent_slice. rewrite W1, slice_fw_before; [apply X5; [lia|exact Hp]|exact Ho|].
        pose proof (ent_end_mono f n Hwf j i ltac:(lia) ltac:(lia)) as Hm. rewrite (ent_end_sum f n Hwf j ltac:(lia)) in Hm. lia.
    + congruence.
  - intros k w' W _. cbn [negb]. apply wp_ret. split; [exact (PW _ _ W)|discriminate].
  - intros bd k w' W _ _. exact (PW _ _ W).
Qed.

Lemma chain_put id ev : chain_ev id ev -> put_ok ev.
Proof. destruct ev; cbn; tauto. Qed.
Lemma store_put ev : store_ev ev -> put_ok ev.
Proof. destruct ev; cbn; tauto. Qed.
Lemma sup_fetch m i st w : (i < n)%nat -> MInv E b f n tino w0 i (ent_start f i) st w -> m_resuming st = false -> X i st w ->
  wp (entry_fetch_write E m (ent_start f i) (ent_size f i) (ent_id f i) st) (fun r w' => puts w' /\ (fst r = true -> X (S i) (snd r) w')) (fun _ w' => puts w') w.
Proof.
  intros Hi (_ & HC & HL) Hres HX. unfold entry_fetch_write.
  set (have := match m_last_id st with Some l => beq l (ent_id f i) | None => false end).
  assert (Hhave : have = true -> m_last_id st = Some (ent_id f i)).
  { unfold have. destruct (m_last_id st) as [l|]; [|discriminate]. intros H. apply beq_eq in H. congruence. }
  clearbody have. apply wp_bind. destruct have.
  - apply wp_ret. cbn [negb]. specialize (Hhave eq_refl). destruct HL as [HL|(j & -> & (A & B & C & D))]; [congruence|].
    assert (Eid : ent_id f j = ent_id f (S j)) by congruence.
    destruct (Hwf j ltac:(lia)) as (_ & _ & W). specialize (W Hi Eid). apply (sup_write m (S j) st w Hi HC).
    + split; [exact A|]. split; [exact Hhave|]. rewrite <- W, <- Eid. auto.
    + exact HX.
    + rewrite <- W, <- Eid. intros Hp. now apply (x_buf _ _ _ HX j).
  - pose proof HC as HC0. destruct HC as [C1 C2 C3 C4 C5 C6 C7 C8 C9 C10 (l & C11 & C12) C13 C14]. pose proof HX as [(lx & X1 & X1') X2 X3 X4 X5 X6].
    rewrite C11 in X1. injection X1 as <-. rewrite C11. apply wp_bind. unfold store_chain_get_chunk.
    assert (Hlid : length (ent_id f i) = 32%nat) by (unfold ent_id; apply length_slice; lia).
    assert (Hbid : bytes_ok (ent_id f i)) by (apply bytes_ok_slice; exact Hok).
    eapply wp_mono; [apply (wp_conj _ _ _ _ _ _ _ (sup_chain E b (w_files w0) (N.to_nat BUF_SIZE) Sup KS HE Hsv Hlocal Hhttp (ent_start f i) (ent_id f i) Hlid Hbid l 0 (m_target st) (m_buf st) w
         ltac:(unfold blen in C13; lia) C6 ltac:(now rewrite C8) ltac:(rewrite C8; apply C7) C12 X1' ltac:(now rewrite C8) ltac:(now rewrite C8))
       (wp_chain_loop E b HE Hsv (ent_start f i) (ent_id f i) Hlid l 0 (m_target st) (m_buf st) w C6 ltac:(now rewrite C8) ltac:(rewrite C8; apply C7) C12))| |].
    + intros [[[r buf] l'] t'] w1 (SU & Q1 & (A1 & A2) & S1 & Sm & ST & Hx). cbn [fst snd] in A1, A2.
      assert (F : forall j, w_files w1 j = w_files w j) by (intros j; apply Q1; exact (fun x => x)).
      assert (P1 : puts w1) by (eapply puts_quiet; [apply chain_put|exact Q1|exact X4]).
      destruct (match r with Some k => k =? ent_size f i | None => false end) eqn:Eg.
      * apply wp_ret. cbn [negb]. destruct r as [k|]; [|discriminate]. apply N.eqb_eq in Eg. subst k.
        set (st1 := m_set st (Some l') t' (Some (ent_id f i)) (m_resuming st) buf).
        assert (HC1 : MCore E b f n tino w0 i st1 w1).
        { eapply MCore_quiet with (st := st) (w := w); eauto; [reflexivity|]. cbn. unfold blen in *. rewrite A1. exact C13. }
        apply (sup_write m i st1 w1 Hi HC1).
        -- split; [exact Hres|]. split; [reflexivity|]. destruct (N.eq_0_gt_0_cases (ent_size f i)) as [Z|Hp].
           ++ rewrite Z. split; [unfold BUF_SIZE; lia|]. lia.
           ++ destruct (A2 Hp) as (A3 & A4). rewrite C13 in A3. split; [exact A3|]. intros _. exact A4.
        -- constructor; cbn [m_store m_target m_buf m_resuming m_last_id m_set st1].
           ++ exists l'. split; [reflexivity|]. eapply ksubs_same; eauto.
           ++ rewrite F. eapply tgt_sup_same; eauto.
           ++ intros j -> Hl Hp. injection Hl as Hl. destruct (Hwf j ltac:(lia)) as (_ & _ & W). specialize (W Hi (eq_sym Hl)). rewrite <- Hl, W. apply SU; [reflexivity|lia].
           ++ exact P1.
           ++ rewrite F. exact X5.
           ++ congruence.
        -- intros Hp. now apply SU.
      * apply wp_ret. cbn [negb]. apply wp_ret. split; [exact P1|discriminate].
    + intros bd w1 (_ & Q1 & _). eapply puts_quiet; [apply chain_put|exact Q1|exact X4].
Qed.

Lemma sup_entry m i st w : (i < n)%nat -> MInv E b f n tino w0 i (ent_start f i) st w -> X i st w ->
  wp (entry_cb E m (ent_start f i) (ent_size f i) (ent_id f i) st) (fun r w' => puts w' /\ (fst r = true -> X (S i) (snd r) w')) (fun _ w' => puts w') w.
Proof.
  intros Hi HI HX. unfold entry_cb. destruct (m_resuming st) eqn:Er; [|now apply sup_fetch].
  pose proof HI as (_ & HC & HL). destruct (BUF_SIZE <? ent_size f i) eqn:Eb.
  { apply wp_ret. split; [apply HX|discriminate]. }
  pose proof HC as HC0. pose proof (MCore_queryable E b f n tino w0 Hlen Hlim _ _ _ HC) as Hqu. pose proof HE as (HH & Hq & Hb & Hz).
  destruct HC as [C1 C2 C3 C4 C5 C6 C7 C8 C9 C10 (l & C11 & C12) C13 C14]. pose proof HX as [(lx & X1 & X1') X2 X3 X4 X5 X6].
  destruct (X6 Er) as (Hg & Hh0).
  assert (Hnone : m_last_id st = None).
  { destruct HL as [HL|(j & _ & (A & _))]; [exact HL|congruence]. }
  apply wp_bind. apply wp_check_chunk with (b := b); auto; [lia| | |]; rewrite ?C8.
  - intros tmp t' w' Q U L1 Hr Hh Ho Had. cbn [m_store m_target m_last_id m_buf m_skipped m_handled].
    assert (F := quiet0_files _ _ Q). apply wp_progress. intros h tr Htr. cbn [fst snd m_store m_target m_last_id m_resuming m_buf m_skipped].
    set (w2 := mkWorld _ _ _ _ _ _ _).
    assert (P2 : puts w2).
    { eapply puts_quiet; [|apply (quiet_progress none (fun ev => put_ok ev) w' tr (fun _ => I) Htr)|]; [auto|]. eapply puts_quiet; [apply store_put|exact Q|exact X4]. }
    assert (Hi0 : holds E b f i g0).
    { rewrite <- Hg. destruct C7 as (C7 & _). split; [rewrite (ent_end_sum f n Hwf i Hi); lia|]. intros _. rewrite <- slice_N_slice. exact Hh. }
    assert (Hall : forall j, (j < S i)%nat -> holds E b f j g0).
    { intros j Hj. destruct (Nat.eq_dec j i) as [->|Hne]; [exact Hi0|apply Hh0; lia]. }
    assert (Hs : Sup (ent_id f i) (ent_slice f i (w_files w tino))) by (rewrite Hg; apply Hold; [exact Hi|]; intros k Hk; apply Hall; lia).
    split; [exact P2|]. intros _. constructor; cbn [m_store m_target m_buf m_resuming m_last_id]; auto; change (w_files w2) with (w_files w'); rewrite ?F.
    + exists lx. auto.
    + eapply added_sup; [exact C9|exact X2|exact Had|auto|]. intros _. rewrite slice_N_slice. exact Hs.
    + congruence.
    + intros j Hj Hp. destruct (Nat.eq_dec j i) as [->|Hne]; [exact Hs|]. apply X5; [lia|exact Hp].
    + intros _. rewrite Hg. auto.
  - intros r tmp w1 Q Hr L1 U Hdiff.
    assert (F := quiet0_files _ _ Q).
    set (st1 := m_set st (m_store st) (m_target st) (m_last_id st) false tmp).
    assert (HC1 : MCore E b f n tino w0 i st1 w1).
    { eapply MCore_quiet with (st := st) (w := w); [exact HC0|exact Q|apply same_target_refl|intros E1; now apply C9|exact C11| |].
      - eapply subs_ok_stable; [| |exact C12]; [intros j _; apply F|reflexivity].
      - cbn. unfold blen in *. rewrite L1. exact C13. }
    assert (HI1 : MInv E b f n tino w0 i (ent_start f i) st1 w1) by (split; [reflexivity|]; split; [exact HC1|left; exact Hnone]).
    assert (HX1 : X i st1 w1).
    { constructor; cbn [m_store m_target m_buf m_resuming m_last_id m_set st1]; rewrite ?F; auto.
      - exists lx. auto.
      - intros j _ Hj. congruence.
      - eapply puts_quiet; [apply store_put|exact Q|exact X4]. }
    destruct r as [[|]|]; [congruence| |]; exact (sup_fetch m i st1 w1 Hi HI1 eq_refl HX1).
  - intros bd w' Q Hbd. eapply puts_quiet; [apply store_put|exact Q|exact X4].
Qed.
End Entry.
