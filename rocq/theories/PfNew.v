(** With the target as the first store, the stores after it are asked for every chunk that is new, and for nothing else (C97). *)
From Coq Require Import Sorting.Permutation.
From Verif Require Import Base Lib Utils Sha Chunker Caibx Index StoreLocal Target StoreHttp Chain Ui MainProg
  SpecBasic SpecEnv SpecChunker SpecStore SpecHttp SpecCaibx SpecMain SpecRun SpecOrder SpecStats SpecReport SpecSource SpecDiary SpecResume SpecNew
  PfUtils PfBasic PfRead PfIO PfIndex PfCaibx PfFrame PfLocal PfHttp PfHttp2 PfTarget PfChain PfMain PfMain2 PfSetup PfRun PfReadonly PfTally PfSync PfUnique PfDiary.
Local Open Scope N_scope.

(** ** Requests *)
Definition past (l : list bytes) (w w' : world) : Prop := exists tr, w_trace w' = tr ++ w_trace w /\ passed_on tr = l.
Lemma passed_app t2 t1 : passed_on (t2 ++ t1) = passed_on t1 ++ passed_on t2.
Proof. unfold passed_on. now rewrite asked_app, rev_app_distr, map_app. Qed.
Lemma past_refl w : past [] w w. Proof. exists []. auto. Qed.
Lemma past_trans a b w1 w2 w3 : past a w1 w2 -> past b w2 w3 -> past (a ++ b) w1 w3.
Proof. intros (t1 & A1 & A2) (t2 & B1 & B2). exists (t2 ++ t1). split; [now rewrite B1, A1, app_assoc|]. now rewrite passed_app, A2, B2. Qed.
Lemma past_quiet S0 (P : tev -> Prop) w w' : (forall ev, P ev -> unasked ev) -> quiet S0 P w w' -> past [] w w'.
Proof.
  intros HP (_ & _ & _ & _ & tr & A & B). exists tr. split; [exact A|]. unfold passed_on. rewrite (asked_none 0 P); [reflexivity| |exact B]. intros p id H. exact (HP _ H).
Qed.
Lemma past_quiet0 w w' : quiet0 w w' -> past [] w w'.
Proof. apply past_quiet. intros []; cbn; tauto. Qed.
Lemma past_event ev w : unasked ev -> past [] w (add_trace ev w).
Proof. intros H. exists [ev]. split; [reflexivity|]. destruct ev; try reflexivity. destruct H. Qed.
Lemma past_one i id w : past (if Nat.ltb 0 i then [id] else []) w (add_trace (TQuery i id) w).
Proof. exists [TQuery i id]. split; [reflexivity|]. unfold passed_on. cbn [asked_after flat_map]. now destruct (Nat.ltb 0 i). Qed.

Lemma in_runs x : forall l, In x l <-> In x (runs l).
Proof.
  induction l as [|a l IH]; [reflexivity|]. destruct l as [|c l]; [cbn; tauto|]. cbn [runs]. destruct (beq a c) eqn:Eb.
  - apply beq_eq in Eb. subst c. cbn [In] in *. tauto.
  - cbn [In] in *. tauto.
Qed.
Lemma runs_repeat id : forall m, runs (repeat id (S m)) = [id].
Proof. induction m as [|m IH]; [reflexivity|]. cbn [repeat] in *. cbn [runs]. rewrite beq_refl. exact IH. Qed.
Lemma runs_app l id m : ~ In id l -> runs (l ++ repeat id (S m)) = runs l ++ [id].
Proof.
  induction l as [|a l IH]; intros Hn; [apply runs_repeat|]. assert (Ha : a <> id) by (intros ->; apply Hn; now left). specialize (IH (fun x => Hn (or_intror x))).
  destruct l as [|c l].
  - change ([a] ++ repeat id (S m)) with (a :: id :: repeat id m). cbn [runs app]. destruct (beq a id) eqn:Eb; [apply beq_eq in Eb; congruence|]. f_equal. exact (runs_repeat id m).
  - cbn [app] in *. cbn [runs] in *. destruct (beq a c); [exact IH|]. cbn [app]. now rewrite IH.
Qed.

Lemma new_ids_next f k i : (k <= i)%nat -> new_ids f k (S i) = new_ids f k i ++ (if is_new f i then [ent_id f i] else []).
Proof.
  intros H. unfold new_ids. replace (S i - k)%nat with (S (i - k)) by lia. rewrite seq_S, filter_app, map_app. replace (k + (i - k))%nat with i by lia. f_equal. cbn. now destruct (is_new f i).
Qed.
Lemma new_ids_none f k : new_ids f k k = []. Proof. unfold new_ids. now rewrite Nat.sub_diag. Qed.
Lemma new_ids_in f k i d : In d (new_ids f k i) -> exists j, (j < i)%nat /\ d = ent_id f j.
Proof. unfold new_ids. intros H. apply in_map_iff in H as (j & <- & H). apply filter_In in H as (H & _). apply in_seq in H. exists j. split; [lia|reflexivity]. Qed.
Lemma is_new_spec f i : is_new f i = true <-> ~ exists j, (j < i)%nat /\ ent_id f i = ent_id f j.
Proof.
  unfold is_new. rewrite negb_true_iff. split.
  - intros H (j & Hj & He). assert (existsb (fun j => beq (ent_id f j) (ent_id f i)) (seq 0 i) = true); [|congruence].
    apply existsb_exists. exists j. split; [apply in_seq; lia|]. rewrite He. apply beq_refl.
  - intros H. destruct (existsb _ _) eqn:Ee; [|reflexivity]. exfalso. apply H. apply existsb_exists in Ee as (j & Hj & He). apply in_seq in Hj. apply beq_eq in He. exists j. split; [lia|congruence].
Qed.
Lemma new_ids_nodup f : forall n k, (k <= n)%nat -> NoDup (new_ids f k n).
Proof.
  induction n as [|n IH]; intros k Hk; [replace k with 0%nat by lia; rewrite new_ids_none; constructor|].
  destruct (Nat.eq_dec k (S n)) as [->|Hne]; [rewrite new_ids_none; constructor|]. rewrite new_ids_next by lia.
  apply NoDup_app2; [apply IH; lia|destruct (is_new f n); repeat constructor; exact (fun x => x)|]. intros d Hd Hd2. destruct (is_new f n) eqn:En; [|destruct Hd2].
  destruct Hd2 as [<-|[]]. apply is_new_spec in En. apply En. apply new_ids_in in Hd as (j & A & B). eauto.
Qed.

(** ** The chain *)
Lemma past_chain E id : forall l i t out w, (0 < i)%nat ->
  wp (chain_loop E i l t id out) (fun x w' => exists m, past (repeat id m) w w' /\ (m <= length l)%nat /\ (has_data (fst (fst (fst x))) = true -> m <> 0%nat)) (fun _ _ => True) w.
Proof.
  induction l as [|ss l IH]; intros i t out w Hi; cbn [chain_loop]; [apply wp_ret; exists 0%nat; split; [apply past_refl|]; split; [lia|discriminate]|].
  destruct (negb (ss_active ss)).
  - apply wp_bind. eapply wp_mono; [apply (IH (S i) t out w); lia| |auto]. intros [[[r o2] l2] t2] w2 (m & A & B & C). apply wp_ret. exists m. split; [exact A|]. split; [cbn [length]; lia|exact C].
  - apply wp_bind, wp_trace, wp_bind. set (w1 := add_trace _ w).
    assert (T1 : past [id] w w1) by (pose proof (past_one i id w) as X; replace (Nat.ltb 0 i) with true in X by (symmetry; apply Nat.ltb_lt; exact Hi); exact X).
    apply (wp_frame none store_ev); [apply frame_store_get; intros; exact Logic.I|]. apply wp_any; [|auto]. intros [[[r o1] s] t1] w2 Q.
    apply wp_bind, wp_trace. set (w3 := add_trace _ w2).
    assert (T3 : past [id] w w3).
    { change [id] with (([id] ++ []) ++ []). eapply past_trans; [eapply past_trans; [exact T1|apply past_quiet0, Q]|apply (past_event (TAnswer i r)); exact Logic.I]. }
    assert (Cont : forall t out s a, wp ('(r, out, l', t) <- chain_loop E (S i) l t id out;; ret (r, out, mkSub s a :: l', t))
       (fun x w' => exists m, past (repeat id m) w w' /\ (m <= length (ss :: l))%nat /\ (has_data (fst (fst (fst x))) = true -> m <> 0%nat)) (fun _ _ => True) w3).
    { intros t2 o2 s2 a2. apply wp_bind. eapply wp_mono; [apply (IH (S i) t2 o2 w3); lia| |auto]. intros [[[r2 o3] l3] t3] w4 (m & M1 & M2 & M3). apply wp_ret. exists (S m).
      split; [apply (past_trans [id] _ w w3 w4 T3 M1)|]. split; [cbn [length]; lia|discriminate]. }
    destruct r as [k|]; [destruct (0 <? k) eqn:Ek|]; try apply Cont.
    apply wp_ret. exists 1%nat. split; [exact T3|]. split; [cbn [length]; lia|discriminate].
Qed.

Lemma missing_absent t id : missing t id <-> ~ present t id.
Proof. unfold missing, present. split; [intros H (e & A & B); exact (H e A B)|intros H e A B; apply H; eauto]. Qed.

(** The target answers if and only if it knows the chunk. *)
Lemma wp_target_knows E t id out w : env_ok E -> tgt_in (w_files w (t_ino t)) t -> blen out = BUF_SIZE -> error_free (w_io w) ->
  wp (target_get_chunk E t id out) (fun x w' => quiet0 w w' /\ ((fst (fst x) = Some 0 /\ ~ present t id) \/ exists m, fst (fst x) = Some m /\ 0 < m /\ present t id)) (fun _ _ => True) w.
Proof.
  intros (HH & Hq & Hb & Hz) (Ht & Hx & Hin) Hl He. unfold target_get_chunk. rewrite Ht. cbn [negb]. apply wp_bind, wp_index_query; auto.
  - intros pos x' e Hx' P N1 N2. apply wp_bind. eapply wp_index_get; [exact N1|].
    assert (Ie : In e (entries t)) by (eapply Permutation_in; [symmetry; exact P|eapply nth_error_In; eauto]).
    destruct (Hin _ Ie) as (G1 & G2 & G3). replace (blen out <? en_len e) with false by lia.
    apply wp_bind, wp_pread; cbn [t_ino t_set_idx].
    + intros ev Hs _ _ Hd _. cbn [negb]. apply wp_ret. split; [apply quiet0_io, Hs|]. right. exists (en_len e). split; [reflexivity|]. split; [lia|]. exists e. auto.
    + intros ev n Hs Hn Hln Hr. exfalso. destruct Hr as [Hr|[Hr|Hr]]; [contradiction|lia|lia].
    + auto.
  - intros x' Hx' P Hno. apply wp_ret. split; [apply quiet0_refl|]. left. split; [reflexivity|]. apply missing_absent. exact Hno.
Qed.

(** The target is the first store of the chain. *)
Lemma past_first E id l t out w : env_ok E -> tgt_in (w_files w (t_ino t)) t -> blen out = BUF_SIZE -> error_free (w_io w) -> live l 0 ->
  wp (chain_loop E 0 l t id out) (fun x w' => exists m, past (repeat id m) w w' /\ (S m <= length l)%nat /\
    ((present t id /\ m = 0%nat) \/ (~ present t id /\ (has_data (fst (fst (fst x))) = true -> m <> 0%nat)))) (fun _ _ => True) w.
Proof.
  intros HE Ht Hl He (ss & N1 & N2 & N3). destruct l as [|ss' l]; [discriminate|]. cbn in N1. injection N1 as ->. cbn [chain_loop]. rewrite N3. cbn [negb].
  apply wp_bind, wp_trace, wp_bind. set (w1 := add_trace _ w). assert (T1 : past [] w w1) by (apply (past_one 0 id w)).
  unfold store_get_chunk. rewrite N2. apply wp_bind. eapply wp_mono; [apply (wp_target_knows E t id out w1 HE Ht Hl He)| |auto].
  intros [[r out'] t'] w2 (A & F). cbn [fst] in F. apply wp_ret, wp_bind, wp_trace. set (w3 := add_trace _ w2).
  assert (T3 : past [] w w3).
  { change (@nil bytes) with ((@nil bytes ++ []) ++ []). eapply past_trans; [eapply past_trans; [exact T1|apply past_quiet0, A]|apply (past_event (TAnswer 0 r)); exact Logic.I]. }
  destruct F as [(-> & F)|(m & -> & F & F2)].
  - change (0 <? 0) with false. cbv iota. apply wp_bind. eapply wp_mono; [apply (past_chain E id l 1 t' out' w3); lia| |auto]. intros [[[r2 o3] l3] t3] w4 (m & M1 & M2 & M3). apply wp_ret. exists m.
    split; [apply (past_trans [] _ w w3 w4 T3 M1)|]. split; [cbn [length]; lia|]. right. split; [exact F|exact M3].
  - replace (0 <? m) with true by (symmetry; apply N.ltb_lt; exact F). apply wp_ret. exists 0%nat. split; [exact T3|]. split; [cbn [length]; lia|]. left. auto.
Qed.

(** ** One entry *)
Section Entry.
Variables (E : env) (m : N) (w0 : world) (tino : nat) (bound : N).
Hypothesis (HE : env_ok E) (Hsv : server_ok E) (Hbound : 60 * (bound + 1) < 2 ^ 64).
Definition knows_also (id : bytes) (t t' : target) : Prop := forall d, present t' d <-> d = id \/ present t d.
Lemma knows_added off len id t t' w : t_queryable t = true -> ~ In false (w_alloc w) -> added off len id (In false (w_alloc w)) t t' -> knows_also id t t'.
Proof.
  intros Hq Ha (_ & _ & H). rewrite Hq in H. destruct H as (_ & H2 & H3 & H4 & _). destruct H4 as [H4|(e0 & H4 & H4')]; [contradiction|]. intros d. split.
  - intros (e & He & <-). destruct (H3 e He) as [X|(-> & _)]; [right; exists e; auto|left; reflexivity].
  - intros [->|(e & He & <-)]; [exists e0; auto|exists e; auto].
Qed.
Lemma present_same t t' d : same_target t t' -> (present t d <-> present t' d).
Proof. intros (_ & _ & P). split; intros (e & He & X); exists e; (split; [|exact X]); eapply Permutation_in; try exact He; [exact P|symmetry; exact P]. Qed.

Lemma past_progress st w : wp (entry_progress E m st) (fun r w' => m_target (snd r) = m_target st /\ past [] w w') (fun _ _ => True) w.
Proof.
  unfold entry_progress. destruct (e_interactive E); [|apply wp_ret; split; [reflexivity|apply past_refl]]. cbv zeta. apply wp_bind, wp_trace, wp_ret. split; [reflexivity|]. apply past_event. exact Logic.I.
Qed.
Lemma past_write st w off len id : t_queryable (m_target st) = true -> idx_ok (t_idx (m_target st)) -> n_entries (t_idx (m_target st)) < bound -> ~ In false (w_alloc w) ->
  wp (bind (target_write E (m_target st) (m_buf st) len off id) (fun '(ok, t) =>
        let st := m_set st (m_store st) t (m_last_id st) (m_resuming st) (m_buf st) in
        if negb (ok : bool) then ret (false, st) else entry_progress E m st))
     (fun r w' => fst r = true -> past [] w w' /\ knows_also id (m_target st) (m_target (snd r))) (fun _ _ => True) w.
Proof.
  intros Hq Hx Hn Ha. pose proof HE as (HH & Hqs & Hbs & Hz). apply wp_bind. destruct (blen (m_buf st) <? len) eqn:El; [unfold target_write; rewrite El; now apply wp_ub|].
  apply wp_target_write; auto.
  - intros _. split; [exact Hx|]. change (2 ^ 64) with 18446744073709551616 in *. lia.
  - lia.
  - intros t' w' Hw _ Had. cbn [negb]. eapply wp_mono; [apply past_progress| |auto]. intros r w2 (P1 & P2) _. split.
    + change (@nil bytes) with (@nil bytes ++ []). eapply past_trans; [|exact P2]. destruct Hw as (_ & _ & _ & _ & Q). eapply past_quiet; [|exact Q]. intros []; cbn; tauto.
    + rewrite P1. cbn [m_set m_target]. eapply knows_added; eauto.
  - intros. cbn [negb]. apply wp_ret. discriminate.
Qed.

Lemma past_fetch i nn st w off len id : i < bound -> length id = 32%nat -> 0 < len -> UInv E 0 w0 tino i st w -> has_chain nn st -> (same_last id st = true -> present (m_target st) id) ->
  wp (entry_fetch_write E m off len id st)
    (fun r w' => fst r = true -> exists k, past (repeat id k) w w' /\ (S k <= nn)%nat /\ (k = 0%nat <-> present (m_target st) id) /\ knows_also id (m_target st) (m_target (snd r)))
    (fun _ _ => True) w.
Proof.
  intros Hi Lid Hl HU Hch Hsame. destruct HU as [U1 U2 U3 U4 U5 U6 U7 U8 _]. unfold entry_fetch_write. fold (same_last id st). destruct U7 as (l & L1 & L2 & L3).
  assert (Ln : length l = nn) by (apply Hch, L1).
  destruct (same_last id st) eqn:Es.
  - apply wp_bind, wp_ret. cbn [negb]. eapply wp_mono; [apply past_write; [apply U5|apply U5|lia|exact U3]| |auto]. intros r w' H Hr. destruct (H Hr) as (A & B). exists 0%nat. split; [exact A|].
    split; [|split; [split; auto|exact B]]. destruct L3 as (ss & N1 & _). destruct l; [discriminate|]. cbn [length] in Ln. lia.
  - rewrite L1. apply wp_bind, wp_bind. unfold store_chain_get_chunk. rewrite <- U4 in U5.
    eapply wp_mono; [apply (wp_conj _ _ _ _ _ _ _ (past_first E id l (m_target st) (m_buf st) w HE U5 U8 U2 L3)
      (chain_asks E 0 HE Hsv id Lid l 0 (m_target st) (m_buf st) w U5 U8 U2 L2 (or_introl (conj (Nat.le_0_l 0) L3))))| |auto].
    intros [[[r buf] ch] t] w1 ((k & K1 & K2 & K3) & A1 & _ & _ & A4 & A5 & _). cbn [fst snd] in *. pose proof A4 as (I1 & I2 & I3).
    destruct r as [k'|]; [destruct (k' =? len) eqn:Ek|]; try (apply wp_ret; cbn [negb]; apply wp_ret; discriminate).
    apply N.eqb_eq in Ek. subst k'. apply wp_ret. cbn [negb]. eapply wp_mono; [apply past_write; cbn [m_set m_target]| |auto].
    + destruct U5 as (X & _). congruence.
    + exact A5.
    + unfold n_entries, entries in *. rewrite <- (Permutation_length I3). lia.
    + intros X. apply U3. destruct A1 as (_ & _ & A1 & _). apply A1, X.
    + intros x w2 H Hx. destruct (H Hx) as (B1 & B2). exists k. split; [rewrite <- (app_nil_r (repeat id k)); eapply past_trans; eauto|]. split; [lia|]. split.
      * cbn in K3. destruct K3 as [(K3 & ->)|(K3 & K4)]; [tauto|]. assert (k <> 0%nat) by (apply K4, N.ltb_lt, Hl). tauto.
      * intros d. rewrite (B2 d). cbn [m_set m_target]. now rewrite <- (present_same _ _ d A4).
Qed.
End Entry.

(** ** All entries *)
Section Whole.
Variables (E : env) (b : bool) (f : bytes) (n nn tino iino : nat) (w1 : world).
Hypothesis (HE : env_ok E) (Hsv : server_ok E) (Hbound : 60 * (N.of_nat n + 1) < 2 ^ 64).
Hypothesis (Hwf : well_formed f n) (Hpos : forall i, (i < n)%nat -> 0 < ent_size f i) (Hid : forall i, (i < n)%nat -> length (ent_id f i) = 32%nat)
  (Hne : iino <> tino) (Hlim : blen (w_files w1 tino) < OFF_LIMIT).
Definition sought (i : nat) (st : mstate) (w : world) : Prop :=
  (forall d, present (m_target st) d <-> exists j, (j < i)%nat /\ d = ent_id f j) /\
  exists l, past l w1 w /\ runs l = new_ids f (N.to_nat (m_skipped st)) i /\ (nn = 2%nat -> l = new_ids f (N.to_nat (m_skipped st)) i).
Definition NInv (i : nat) (last : N) (st : mstate) (w : world) : Prop :=
  DInv E b f nn tino iino w1 i last st w /\ UInv E 0 w1 tino (N.of_nat i) st w /\ sought i st w.

Lemma knows_next i t t' : (forall d, present t d <-> exists j, (j < i)%nat /\ d = ent_id f j) -> knows_also (ent_id f i) t t' ->
  forall d, present t' d <-> exists j, (j < S i)%nat /\ d = ent_id f j.
Proof.
  intros H K d. rewrite (K d), H. split.
  - intros [->|(j & A & B)]; [exists i; auto|exists j; auto].
  - intros (j & A & ->). destruct (Nat.eq_dec j i) as [->|]; [now left|right; exists j; split; [lia|reflexivity]].
Qed.
(** Asking for entry [i]. *)
Lemma sought_fetch i k m t l w w' : (k <= i)%nat -> (forall d, present t d <-> exists j, (j < i)%nat /\ d = ent_id f j) ->
  past l w1 w -> runs l = new_ids f k i -> (nn = 2%nat -> l = new_ids f k i) ->
  past (repeat (ent_id f i) m) w w' -> (S m <= nn)%nat -> (m = 0%nat <-> present t (ent_id f i)) ->
  exists l', past l' w1 w' /\ runs l' = new_ids f k (S i) /\ (nn = 2%nat -> l' = new_ids f k (S i)).
Proof.
  intros Hk Hp H1 H2 H3 H4 H5 H6. exists (l ++ repeat (ent_id f i) m). split; [eapply past_trans; eauto|]. rewrite new_ids_next by exact Hk. rewrite Hp in H6.
  destruct (is_new f i) eqn:En.
  - apply is_new_spec in En. assert (Hm : m <> 0%nat) by tauto. destruct m as [|m]; [congruence|]. rewrite runs_app, H2.
    + split; [reflexivity|]. intros Hn. rewrite (H3 Hn). f_equal. replace m with 0%nat by lia. reflexivity.
    + intros X. apply (proj1 (in_runs _ _)) in X. rewrite H2 in X. apply new_ids_in in X. tauto.
  - assert (m = 0%nat) as ->. { apply H6. destruct (is_new_spec f i) as (_ & X). destruct (existsb (fun j => beq (ent_id f j) (ent_id f i)) (seq 0 i)) eqn:Ee.
      - apply existsb_exists in Ee as (j & Hj & He). apply in_seq in Hj. apply beq_eq in He. exists j. split; [lia|congruence].
      - unfold is_new in En. rewrite Ee in En. discriminate. }
    cbn [repeat]. rewrite !app_nil_r. auto.
Qed.

Lemma sought_entry m i st w : (i < n)%nat -> NInv i (ent_start f i) st w ->
  wp (entry_cb E m (ent_start f i) (ent_size f i) (ent_id f i) st) (fun r w' => if fst r then NInv (S i) (ent_end f i) (snd r) w' else True) (fun _ _ => True) w.
Proof.
  intros Hi (HD & HU & HN). pose proof (noted_entry E b f n nn tino iino w1 Hwf Hpos Hne Hlim m i st w Hi HD) as WD.
  pose proof (wp_entry_u E 0 HE Hsv w1 tino (N.of_nat n) Hbound m (N.of_nat i) st w (ent_start f i) (ent_size f i) (ent_id f i) ltac:(lia) (Hid i Hi) HU) as WU.
  destruct HD as ((_ & I2 & _ & I4 & I5) & _). destruct HN as (N1 & l & N2 & N3 & N4). pose proof HU as [U1 U2 U3 U4 U5 U6 _ U8 _]. pose proof HE as (HH & Hqs & Hbs & Hz).
  assert (G : wp (entry_cb E m (ent_start f i) (ent_size f i) (ent_id f i) st) (fun r w' => fst r = true -> sought (S i) (snd r) w') (fun _ _ => True) w).
  { unfold sought. unfold so_far in I5. unfold entry_cb. destruct (m_resuming st) eqn:Er.
    - destruct I5 as (J1 & J2 & J3 & J4 & J5 & J6 & J7). destruct (BUF_SIZE <? ent_size f i) eqn:Eb; [apply wp_ret; discriminate|].
      rewrite J1, Nat2N.id in N3, N4.
      apply wp_bind, wp_check_chunk with (b := b); auto.
      + intros _. split; [apply U5|]. change (2 ^ 64) with 18446744073709551616 in *. lia.
      + lia.
      + intros tmp t' w' Q _ Lt _ _ _ Had.
        eapply wp_mono; [apply (wp_conj _ _ _ _ _ _ _ (past_progress E m _ w') (tally_progress E m nn _ w'))| |auto].
        intros [ok st'] w2 ((P1 & P2) & (_ & _ & _ & _ & _ & _ & _ & P7 & _)) _. cbn [fst snd m_skipped m_target] in *. split.
        * apply (knows_next i (m_target st)); [exact N1|]. rewrite P1. eapply knows_added; [apply U5|exact U3|exact Had].
        * assert (l = []) as ->. { rewrite new_ids_none in N3. destruct l as [|x l]; [reflexivity|]. assert (X : In x (runs (x :: l))) by (apply (proj1 (in_runs x (x :: l))); now left). rewrite N3 in X. destruct X. }
          exists []. split; [apply (past_trans [] [] w1 w' w2); [apply (past_trans [] [] w1 w w' N2), past_quiet0, Q|exact P2]|]. rewrite P7, J1. replace (N.to_nat (N.of_nat i + 1)) with (S i) by lia. rewrite new_ids_none. auto.
      + intros r tmp w' Q Hr Lt _ _. set (st2 := m_set st (m_store st) (m_target st) (m_last_id st) false tmp).
        assert (HU' : UInv E 0 w1 tino (N.of_nat i) st2 w').
        { destruct HU as [_ _ _ _ _ _ U7 _ U9]. pose proof Q as (_ & Q2 & Q3 & _). constructor; unfold st2; cbn [m_set m_buf m_target m_store]; auto.
          - intros j Hj. rewrite (quiet0_files _ _ Q). auto.
          - eapply error_free_suffix; eauto.
          - now rewrite (quiet0_files _ _ Q).
          - destruct U7 as (l1 & L1 & L2 & L3). exists l1. split; [exact L1|]. split; [|exact L3]. eapply subs_ok_stable; [| |exact L2]; [|reflexivity]. intros j _. apply (quiet0_files _ _ Q).
          - unfold blen in *. now rewrite Lt.
          - eapply trace_quiet; [|exact Q|exact U9]. intros [] X; cbn in *; tauto. }
        assert (Fetch : wp (entry_fetch_write E m (ent_start f i) (ent_size f i) (ent_id f i) st2) (fun r w' => fst r = true -> sought (S i) (snd r) w') (fun _ _ => True) w').
        { eapply wp_mono; [apply (wp_conj _ _ _ _ _ _ _ (past_fetch E m w1 tino (N.of_nat n) HE Hsv Hbound (N.of_nat i) nn st2 w' (ent_start f i) (ent_size f i) (ent_id f i) ltac:(lia) (Hid i Hi) (Hpos i Hi) HU' I4 ltac:(unfold same_last, st2; cbn [m_set m_last_id]; rewrite J2; discriminate))
            (tally_fetch E m nn (ent_start f i) (ent_size f i) (ent_id f i) st2 w' (Hpos i Hi) I4))| |auto].
          intros x w3 (K & T) Hx. destruct (K Hx) as (k & K1 & K2 & K3 & K4). destruct (T Hx) as (_ & _ & _ & _ & T5). unfold st2 in K3, K4, T5. cbn [m_set m_target m_skipped] in K3, K4, T5. split; [eapply knows_next; eauto|].
          rewrite T5, J1, Nat2N.id. eapply (sought_fetch i i k (m_target st) l w'); eauto. rewrite <- (app_nil_r l). eapply past_trans; [exact N2|apply past_quiet0, Q]. }
        destruct r as [[|]|]; [congruence|exact Fetch|exact Fetch].
    - destruct I5 as (k0 & J1 & J2 & J3 & _).
      assert (Same : same_last (ent_id f i) st = true -> present (m_target st) (ent_id f i)).
      { unfold same_last. rewrite J3. intros X. apply beq_eq in X. apply N1. exists (i - 1)%nat. split; [lia|congruence]. }
      rewrite J2, Nat2N.id in N3, N4.
      eapply wp_mono; [apply (wp_conj _ _ _ _ _ _ _ (past_fetch E m w1 tino (N.of_nat n) HE Hsv Hbound (N.of_nat i) nn st w (ent_start f i) (ent_size f i) (ent_id f i) ltac:(lia) (Hid i Hi) (Hpos i Hi) HU I4 Same)
            (tally_fetch E m nn (ent_start f i) (ent_size f i) (ent_id f i) st w (Hpos i Hi) I4))| |auto].
      intros x w3 (K & T) Hx. destruct (K Hx) as (k & K1 & K2 & K3 & K4). destruct (T Hx) as (_ & _ & _ & _ & T5). split; [eapply knows_next; eauto|].
      rewrite T5, J2, Nat2N.id. eapply (sought_fetch i k0 k (m_target st) l w); eauto. lia. }
  eapply wp_mono; [apply (wp_conj _ _ _ _ _ _ _ (wp_conj _ _ _ _ _ _ _ WD WU) G)| |auto]. intros [ok st'] w' ((A & B) & C). cbn [fst snd] in *. destruct ok; [|exact Logic.I].
  split; [exact A|]. split; [replace (N.of_nat (S i)) with (N.of_nat i + 1) by lia; exact B|]. now apply C.
Qed.
End Whole.

(** ** The whole run *)
Lemma main_new E b argv w w' tino f n : sane E argv w -> good_index E argv w -> (b = true -> hash_reliable E w) -> error_free (w_io w) -> ~ In false (w_alloc w) ->
  nth_error (cmd_stores argv) 0 = Some (cmd_target argv) ->
  e_open_rw E (cmd_target argv) = Some tino -> the_index E argv w f n -> (forall i, (i < n)%nat -> 0 < ent_size f i) -> main E argv w = (Ok 0, w') ->
  exists k tr, (k <= n)%nat /\ run_trace w w' tr /\ diary tr = to_do f k n (w_files w' tino) /\ runs (passed_on tr) = new_ids f k n /\
    (length (cmd_stores argv) = 2%nat -> passed_on tr = new_ids f k n) /\
    (forall j, (j < k)%nat -> holds E b f j (w_files w tino)) /\ (b = true -> (k < n)%nat -> ~ holds E true f k (w_files w tino)).
Proof.
  intros HS HG Hb Hio Ha Hk Hopen (iino & p & Ho & Hf & HV) Hpos Hm. rewrite main_init in Hm. unfold bind in Hm. destruct (init E argv w) as [[r| | |] w1] eqn:Hinit; try discriminate.
  pose proof (wp_init E b argv w HS Hb) as H. unfold wp in H. rewrite Hinit in H. destruct H as (wk & Hst & Q1 & HR).
  pose proof (wp_init E false argv w HS ltac:(discriminate)) as H. unfold wp in H. rewrite Hinit in H. destruct H as (wk2 & _ & _ & HR2).
  destruct r as [su| |c]; [|discriminate|subst c; discriminate].
  pose proof (ready_files _ _ _ _ _ _ _ Hst HR) as Hfil. destruct HS as [HE Hsv Hes Hfo Hargs Hhelp Hix Hal Hd].
  destruct HR as [R1 R2 R3 R4 R5 R6 R7 (l & R8 & _ & R10)].
  assert (R9 : Forall (sub_ok E false w1 (su_target su)) l) by (destruct HR2 as [_ _ _ _ _ _ _ (l2 & Y1 & Y2 & _)]; congruence).
  assert (t_ino (su_target su) = tino) as Et by congruence. assert (iino = su_index su) as -> by congruence. rewrite Hf in R4.
  assert (Hn : su_n su = N.of_nat n) by (destruct HV as (V1 & _); destruct R4 as (V2 & _); lia).
  assert (Hne : su_index su <> tino) by (intros Heq; apply (Hix tino); congruence).
  assert (Hlen : (64 + 40 * n <= length f)%nat) by (destruct HV as (V1 & _); unfold blen in V1; lia).
  destruct (Hfo (su_index su)) as (Hok & Hlim). rewrite Hf in Hok, Hlim.
  assert (Hwf : well_formed f n) by (rewrite <- Hf; replace n with (N.to_nat (N.of_nat n)) by lia; apply (HG _ p _ Ho); rewrite Hf; exact HV).
  assert (Hsl : suffix (w_io w1) (w_io w)) by (destruct Hst as (? & ->); apply Q1).
  assert (Ha1 : ~ In false (w_alloc w1)) by (intros X; apply Ha; destruct Hst as (? & ->); destruct Q1 as (_ & _ & Q1 & _); apply (Q1 _ X)).
  assert (He1 : error_free (w_io w1)) by (eapply error_free_suffix; eauto).
  assert (D0 : did [] w w1 /\ past [] w w1) by (destruct Hst as (? & ->); split; [exact (did_quiet0 _ _ Q1)|exact (past_quiet0 _ _ Q1)]). destruct D0 as (D0 & S0).
  set (nn := length (cmd_stores argv)).
  assert (Hl : length l = nn) by (unfold nn; clear - R10; induction R10; cbn; congruence).
  assert (Hbd : 60 * (N.of_nat n + 1) < 2 ^ 64). { unfold blen, OFF_LIMIT in Hlim. change (2 ^ 64) with 18446744073709551616. lia. }
  assert (Hq : t_queryable (su_target su) = true). { apply R7. apply nth_error_In in Hk. apply in_map_iff. exists (cmd_target argv). split; [|exact Hk]. unfold classify_arg. now rewrite beq_refl. }
  assert (Hlv : live l 0).
  { destruct (Forall2_at _ _ _ R10 0%nat _ Hk) as (ss & A & B). exists ss. destruct B as (B1 & B2). unfold classify_arg in B2. rewrite beq_refl in B2.
    split; [exact A|]. split; [destruct (ss_store ss); tauto|exact B1]. }
  destruct (R6 Hq) as (X1 & X2 & _).
  assert (Hbuf : blen (repeat 0 (N.to_nat BUF_SIZE)) = BUF_SIZE) by (unfold blen; rewrite repeat_length; apply N2Nat.id).
  assert (HU : UInv E 0 w1 tino 0 (initial_mstate su) w1).
  { unfold initial_mstate. constructor; cbn [m_target m_store m_buf]; auto.
    - split; [exact Hq|]. split; [exact X1|]. intros e Hin. unfold entries in Hin. rewrite X2 in Hin. destruct Hin.
    - unfold n_entries. rewrite X2. cbn. lia.
    - exists l. auto.
    - exists []. split; [reflexivity|]. split; [constructor|]. intros q d []. }
  assert (W : wp (caibx_iterate_entries (entry_cb E (N.of_nat n)) (su_index su) (su_params su) (N.of_nat n) (initial_mstate su))
    (fun r w' => if fst r then exists last', NInv E b f nn tino (su_index su) w1 n last' (snd r) w' else True) (fun _ _ => True) w1).
  { apply (iterate_rule (entry_cb E (N.of_nat n)) (su_index su) (su_params su) f n Hok Hlen Hlim (NInv E b f nn tino (su_index su) w1) (fun _ _ => True) (fun _ _ => True)); auto.
    - intros i last a w3 HI. apply HI.
    - intros i last a w3 ev Hi HI Hsx _. pose proof HI as (((_ & _ & -> & _) & _) & _). rewrite (not_skipped _ _ tino (su_index su)) by auto.
      rewrite (ent_len_size f n tino (su_index su)) by auto. destruct (Hwf i Hi) as (_ & B & _). rewrite N.mod_small by exact B.
      apply (sought_entry E b f n nn tino (su_index su) w1 HE Hsv Hbd Hwf Hpos); [|exact Hne|rewrite Hfil; apply Hfo|exact Hi|].
      { intros j Hj. apply ent_id_length with (n := n); auto. }
      destruct HI as ((A1 & A2 & A3 & A4) & A5 & A6). split; [|split; [apply UInv_io; [exact Hsx|exact A5]|exact A6]].
      split; [exact A1|]. split; [exact A2|]. split; [eapply suffix_trans; eauto|exact A4].
    - split; [split|split; [exact HU|]].
      + split; [now rewrite Hfil|]. split; [exact Et|]. split; [reflexivity|]. split; [intros l' Hl'; cbn in Hl'; congruence|]. unfold so_far. cbn [initial_mstate m_resuming m_skipped m_last_id m_buf].
        split; [reflexivity|]. split; [reflexivity|]. split; [apply tally_refl|]. split; [reflexivity|]. split; [exact R5|]. split; [exact Hbuf|]. intros; lia.
      + unfold noted. cbn [initial_mstate m_resuming]. split; [cbn [ent_start]; lia|]. split; [apply suffix_refl|apply did_refl].
      + split.
        * intros d. split; [|intros (j & X & _); lia]. intros (e & Hin & _). cbn [initial_mstate m_target] in Hin. unfold entries in Hin. rewrite X2 in Hin. destruct Hin.
        * exists []. split; [apply past_refl|]. cbn [initial_mstate m_skipped]. rewrite new_ids_none. auto. }
  clear HU Hbuf. unfold run_sync, bind in Hm. rewrite Hn in Hm. unfold wp in W. destruct (caibx_iterate_entries _ _ _ _ _ w1) as [[[ok st]| | |] w2]; try discriminate. destruct ok; cbn [negb fst snd] in *; [|discriminate].
  destruct (m_store st) as [chain|]; [|discriminate]. pose proof (frame_chain_free none never chain w2) as Fr. destruct (store_chain_free chain w2) as [[u| | |] w3]; try discriminate.
  cbn [ret] in Hm. injection Hm as <-. cbn [snd] in Fr. assert (F3 : w_files w3 tino = w_files w2 tino) by (destruct Fr as (Fr & _); apply Fr; intros []).
  assert (D3 : did [] w2 w3) by (eapply did_quiet; [|exact Fr]; intros ? []). assert (S3 : past [] w2 w3) by (eapply past_quiet; [|exact Fr]; intros ? []).
  destruct W as (last & ((_ & _ & _ & _ & W1) & _ & _ & W2) & _ & _ & l1 & W3 & W4 & W5). unfold so_far in W1. rewrite Hfil in W1. rewrite F3.
  assert (Fin : forall l0, did l0 w1 w2 -> exists tr, run_trace w w3 tr /\ acts tr = l0 /\ passed_on tr = l1).
  { intros l0 Hd0. pose proof (did_trans _ _ _ _ _ (did_trans _ _ _ _ _ D0 Hd0) D3) as (tr & T1 & T2). pose proof (past_trans _ _ _ _ _ (past_trans _ _ _ _ _ S0 W3) S3) as (tr' & T1' & T2').
    exists tr. split; [exact T1|]. rewrite T2, app_nil_r. split; [reflexivity|]. rewrite app_nil_r in T2'. cbn [app] in T2'. rewrite <- T2'. f_equal. rewrite T1 in T1'. eapply app_inv_tail; exact T1'. }
  destruct (m_resuming st).
  - destruct W1 as (W1 & _ & _ & _ & _ & _ & C). rewrite W1, Nat2N.id in W4, W5. destruct (Fin _ W2) as (tr & T1 & T2 & T3). exists n, tr. split; [lia|]. split; [exact T1|].
    split; [unfold diary; fold (acts tr); rewrite T2, to_do_none; reflexivity|]. rewrite T3. split; [exact W4|]. split; [exact W5|]. split; [exact C|lia].
  - destruct W2 as (k & l0 & B1 & B2 & _ & B3 & B4 & B5 & B6). rewrite B6, Nat2N.id in W4, W5. destruct (Fin _ B2) as (tr & T1 & T2 & T3). exists k, tr. split; [lia|]. split; [exact T1|].
    split; [unfold diary; fold (acts tr); rewrite T2; exact B3|]. rewrite T3. split; [exact W4|]. split; [exact W5|].
    rewrite Hfil in B4. split; [exact B4|]. intros Y1 _. unfold missed in B5. rewrite Hfil in B5. apply B5; [exact Y1|exact He1].
Qed.

(** ** Images *)
Lemma new_ids_novel E f n pieces : describes E f n pieces -> forall m i seen, (i + m = n)%nat -> (forall d, In d seen <-> exists j, (j < i)%nat /\ d = ent_id f j) ->
  map (ent_id f) (filter (is_new f) (seq i m)) = novel E seen (skipn i pieces).
Proof.
  intros HD. induction m as [|m IH]; intros i seen Hm Hs.
  - rewrite skipn_all2 by (destruct HD as (-> & _); lia). reflexivity.
  - destruct (nth_error pieces i) as [P|] eqn:HP; [|apply nth_error_None in HP; destruct HD as (HL & _); lia].
    pose proof HD as (HL & HD'). destruct (HD' i P HP) as (_ & _ & Hi). rewrite (skipn_nth_cons _ _ _ HP). cbn [seq filter novel].
    rewrite <- (IH (S i) (e_H E P :: seen)); [|lia|].
    + assert (X : is_new f i = negb (existsb (beq (e_H E P)) seen)).
      { destruct (existsb (beq (e_H E P)) seen) eqn:Ee; cbn [negb].
        - apply existsb_exists in Ee as (d & A & B). apply beq_eq in B. subst d. apply Hs in A as (j & A & B). destruct (is_new f i) eqn:En; [|reflexivity]. apply is_new_spec in En. elim En. exists j. split; [exact A|congruence].
        - apply is_new_spec. intros (j & A & B). assert (Y : existsb (beq (e_H E P)) seen = true); [|congruence]. apply existsb_exists. exists (e_H E P). split; [apply Hs; exists j; split; [exact A|congruence]|apply beq_refl]. }
      rewrite X. destruct (existsb _ seen); cbn [negb map app]; [reflexivity|]. now rewrite Hi.
    + intros d. cbn [In]. rewrite Hs. split.
      * intros [<-|(j & A & B)]; [exists i; split; [lia|congruence]|exists j; auto].
      * intros (j & A & ->). destruct (Nat.eq_dec j i) as [->|]; [left; congruence|right; exists j; split; [lia|reflexivity]].
Qed.
Lemma seen_ids E f n pieces k : describes E f n pieces -> (k <= n)%nat -> forall d, In d (map (e_H E) (firstn k pieces)) <-> exists j, (j < k)%nat /\ d = ent_id f j.
Proof.
  intros (HL & HD) Hk d. rewrite in_map_iff. split.
  - intros (P & <- & HP). apply In_nth_error in HP as (j & HP). assert (Hj : (j < length (firstn k pieces))%nat) by (apply nth_error_Some; congruence). rewrite firstn_length in Hj.
    assert (HP2 : nth_error pieces j = Some P) by (rewrite <- (firstn_skipn k pieces), nth_error_app1 by (rewrite firstn_length; exact Hj); exact HP).
    exists j. split; [lia|]. now destruct (HD j P HP2) as (_ & _ & ->).
  - intros (j & Hj & ->). destruct (nth_error pieces j) as [P|] eqn:HP; [|apply nth_error_None in HP; lia]. exists P. destruct (HD j P HP) as (_ & _ & X). split; [congruence|].
    apply nth_error_In with j. rewrite <- (firstn_skipn k pieces) in HP. rewrite nth_error_app1 in HP; [exact HP|]. rewrite firstn_length. lia.
Qed.
Lemma novel_once E : forall ps seen, NoDup (novel E seen ps) /\ forall d, In d (novel E seen ps) <-> In d (map (e_H E) ps) /\ ~ In d seen.
Proof.
  induction ps as [|P ps IH]; intros seen; [split; [constructor|cbn; tauto]|]. destruct (IH (e_H E P :: seen)) as (I1 & I2). cbn [novel map]. destruct (existsb (beq (e_H E P)) seen) eqn:Ee.
  - apply existsb_exists in Ee as (d0 & A & B). apply beq_eq in B. subst d0. split; [exact I1|]. intros d. cbn [app]. rewrite I2. cbn [In]. split; [tauto|]. intros ([<-|X] & Y); [contradiction|]. split; [exact X|]. intros [<-|Z]; contradiction.
  - assert (Hn : ~ In (e_H E P) seen). { intros X. assert (Y : existsb (beq (e_H E P)) seen = true); [|congruence]. apply existsb_exists. exists (e_H E P). split; [exact X|apply beq_refl]. }
    cbn [app]. split.
    + constructor; [|exact I1]. rewrite I2. cbn [In]. tauto.
    + intros d. cbn [In]. rewrite I2. cbn [In]. split; [intros [<-|X]; tauto|]. intros ([<-|X] & Y); [now left|]. destruct (beq (e_H E P) d) eqn:Eb; [apply beq_eq in Eb; now left|]. right. split; [exact X|]. intros [<-|Z]; [rewrite beq_refl in Eb; discriminate|contradiction].
Qed.

Lemma main_novel E argv w w' tino pieces : sane E argv w -> described E argv w pieces -> (forall P, In P pieces -> P <> []) -> error_free (w_io w) -> ~ In false (w_alloc w) ->
  nth_error (cmd_stores argv) 0 = Some (cmd_target argv) -> e_open_rw E (cmd_target argv) = Some tino -> main E argv w = (Ok 0, w') ->
  collision E pieces (fun y => exists a l, end_piece y (slice a l (w_files w' tino))) \/
  exists k tr, (k <= length pieces)%nat /\ run_trace w w' tr /\ runs (passed_on tr) = novel E (map (e_H E) (firstn k pieces)) (skipn k pieces) /\
    (length (cmd_stores argv) = 2%nat -> passed_on tr = novel E (map (e_H E) (firstn k pieces)) (skipn k pieces)) /\
    (w_files w tino = [] -> k = 0%nat) /\ (hash_reliable E w -> (k < length pieces)%nat -> ~ begun_with (w_files w tino) (firstn (S k) pieces)).
Proof.
  intros HS HD Hne Hio Ha Hk0 Ht Hm. destruct (success_image E argv w w' pieces HS HD Hm) as (iino & tino' & p & n & H1 & H2 & H3 & H4). assert (tino' = tino) as -> by congruence.
  set (f := w_files w iino) in *. pose proof (HD _ _ _ H1 H3) as Hds. fold f in Hds. pose proof Hds as (HL & Hds').
  assert (Hx : the_index E argv w f (length pieces)) by (exists iino, p; rewrite HL, N2Nat.id; auto).
  set (K := fun y => exists a l, end_piece y (slice a l (w_files w' tino))).
  assert (Hpos : forall i, (i < length pieces)%nat -> 0 < ent_size f i).
  { intros i Hi. destruct (nth_error pieces i) as [P|] eqn:HP; [|apply nth_error_None in HP; lia]. destruct (Hds' i P HP) as (X & _). unfold ent_size. rewrite X.
    specialize (Hne P ltac:(eapply nth_error_In; eauto)). destruct P; [congruence|]. unfold blen. cbn [length]. lia. }
  destruct (described_good E argv w pieces iino p n K HD H1 H3) as [HG|HC]; [|now left]. right. rewrite <- HL in Hds.
  assert (Hnew : forall k, (k <= length pieces)%nat -> new_ids f k (length pieces) = novel E (map (e_H E) (firstn k pieces)) (skipn k pieces)).
  { intros k Hk. unfold new_ids. apply (new_ids_novel E f (length pieces) pieces Hds); [lia|]. exact (seen_ids E f (length pieces) pieces k Hds Hk). }
  assert (Hfresh : forall b k, (k <= length pieces)%nat -> (forall j, (j < k)%nat -> holds E b f j (w_files w tino)) -> w_files w tino = [] -> k = 0%nat).
  { intros b k Hk A4 He. destruct k as [|k]; [reflexivity|]. destruct (A4 0%nat ltac:(lia)) as (X & _). rewrite He in X. specialize (Hpos 0%nat ltac:(lia)). unfold ent_size in Hpos. change (blen []) with 0 in X. lia. }
  destruct (hash_reliable_dec E w) as [Hr|Hr].
  - destruct (main_new E true argv w w' tino f (length pieces) HS HG (fun _ => Hr) Hio Ha Hk0 Ht Hx Hpos Hm) as (k & tr & A1 & A2 & _ & A3 & A3' & A4 & A5). exists k, tr. split; [exact A1|]. split; [exact A2|].
    split; [now rewrite A3, Hnew|]. split; [intros Y; now rewrite (A3' Y), Hnew|]. split; [eauto|]. intros _ Hk (r & Hb). apply (A5 eq_refl Hk).
    destruct (nth_error pieces k) as [P|] eqn:HP; [|apply nth_error_None in HP; lia]. destruct (Hds' k P HP) as (X1 & _ & X2).
    rewrite (firstn_S_nth _ _ _ HP), concat_app in Hb. cbn [concat] in Hb. rewrite app_nil_r in Hb.
    pose proof (start_is E f _ pieces Hds k ltac:(lia)) as S1. split.
    + rewrite X1, S1, Hb. unfold blen. rewrite !app_length. lia.
    + intros _. unfold ent_size. rewrite X1, S1, X2, Hb.
      replace (N.to_nat (blen (concat (firstn k pieces)))) with (length (concat (firstn k pieces))) by (unfold blen; lia).
      replace (N.to_nat (blen (concat (firstn k pieces)) + blen P - blen (concat (firstn k pieces)))) with (length P) by (unfold blen; lia).
      unfold slice. rewrite <- app_assoc, skipn_app, skipn_all, Nat.sub_diag. cbn [skipn app]. rewrite firstn_app, Nat.sub_diag, firstn_all, firstn_O, app_nil_r. reflexivity.
  - destruct (main_new E false argv w w' tino f (length pieces) HS HG ltac:(discriminate) Hio Ha Hk0 Ht Hx Hpos Hm) as (k & tr & A1 & A2 & _ & A3 & A3' & A4 & _). exists k, tr. split; [exact A1|]. split; [exact A2|].
    split; [now rewrite A3, Hnew|]. split; [intros Y; now rewrite (A3' Y), Hnew|]. split; [eauto|]. contradiction.
Qed.

(** An image written to an empty target, with one store besides it: every chunk is requested there once. *)
Lemma main_all_once E argv w w' tino pieces : sane E argv w -> described E argv w pieces -> (forall P, In P pieces -> P <> []) -> error_free (w_io w) -> ~ In false (w_alloc w) ->
  nth_error (cmd_stores argv) 0 = Some (cmd_target argv) -> length (cmd_stores argv) = 2%nat -> e_open_rw E (cmd_target argv) = Some tino -> w_files w tino = [] -> main E argv w = (Ok 0, w') ->
  collision E pieces (fun y => exists a l, end_piece y (slice a l (w_files w' tino))) \/
  exists tr, run_trace w w' tr /\ NoDup (passed_on tr) /\ forall d, In d (passed_on tr) <-> In d (map (e_H E) pieces).
Proof.
  intros HS HD Hne Hio Ha Hk0 Hs2 Ht He Hm. destruct (main_novel E argv w w' tino pieces HS HD Hne Hio Ha Hk0 Ht Hm) as [C|(k & tr & A1 & A2 & _ & A3 & A4 & _)]; [now left|right].
  rewrite (A4 He) in A3. cbn [firstn skipn map] in A3. exists tr. split; [exact A2|]. rewrite (A3 Hs2). destruct (novel_once E pieces []) as (B1 & B2). split; [exact B1|]. intros d. rewrite B2. cbn [In]. tauto.
Qed.
