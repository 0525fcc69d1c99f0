(** However a run ends, what it has asked for and written is the beginning of what is to be done (C99). *)
From Verif Require Import Base Lib Utils Sha Chunker Caibx Index StoreLocal Target StoreHttp Chain Ui MainProg
  SpecBasic SpecEnv SpecChunker SpecStore SpecHttp SpecCaibx SpecMain SpecRun SpecOrder SpecStats SpecReport SpecSource SpecDiary SpecOutline
  PfUtils PfBasic PfRead PfIO PfCaibx PfFrame PfLocal PfTarget PfChain PfMain PfMain2 PfSetup PfRun PfReadonly PfTally PfDiary.
Local Open Scope N_scope.

Lemma begins_refl {A} (a : list A) : begins a a. Proof. exists []. now rewrite app_nil_r. Qed.
Lemma begins_nil {A} (a : list A) : begins [] a. Proof. now exists a. Qed.
Lemma begins_app {A} (p a c : list A) : begins a c -> begins (p ++ a) (p ++ c). Proof. intros (r & ->). exists r. apply app_assoc. Qed.
Lemma begins_more {A} (a c d : list A) : begins a c -> begins a (c ++ d). Proof. intros (r & ->). exists (r ++ d). now rewrite app_assoc. Qed.

(** ** A request *)
Lemma doing_chain E id : forall l i t out w, let P := fun w' => exists m, did (repeat (Asks id) m) w w' in
  wp (chain_loop E i l t id out) (fun x w' => exists m, did (repeat (Asks id) m) w w' /\ (has_data (fst (fst (fst x))) = true -> m <> 0%nat)) (fun _ => P) w.
Proof.
  cbv zeta. induction l as [|ss l IH]; intros i t out w; cbn [chain_loop]; [apply wp_ret; exists 0%nat; split; [apply did_refl|discriminate]|].
  destruct (negb (ss_active ss)).
  - apply wp_bind. eapply wp_mono; [apply (IH (S i) t out w)| |auto]. intros [[[r o2] l2] t2] w2 H. apply wp_ret. exact H.
  - apply wp_bind, wp_trace, wp_bind. set (w1 := add_trace _ w). assert (T1 : did [Asks id] w w1) by (apply (did_event (TQuery i id))).
    assert (T2 : forall w2, quiet0 w1 w2 -> did [Asks id] w w2) by (intros w2 Q; change [Asks id] with ([Asks id] ++ []); eapply did_trans; [exact T1|apply did_quiet0, Q]).
    apply (wp_frame none store_ev); [apply frame_store_get; intros; exact Logic.I|]. apply wp_any; [|intros bd w2 Q; exists 1%nat; now apply T2]. intros [[[r o1] s] t1] w2 Q.
    apply wp_bind, wp_trace. set (w3 := add_trace _ w2).
    assert (T3 : did [Asks id] w w3).
    { change [Asks id] with ([Asks id] ++ []). eapply did_trans; [apply T2, Q|apply (did_event (TAnswer i r))]. }
    assert (Cont : forall t out s a, wp ('(r, out, l', t) <- chain_loop E (S i) l t id out;; ret (r, out, mkSub s a :: l', t))
       (fun x w' => exists m, did (repeat (Asks id) m) w w' /\ (has_data (fst (fst (fst x))) = true -> m <> 0%nat)) (fun _ w' => exists m, did (repeat (Asks id) m) w w') w3).
    { intros t2 o2 s2 a2. apply wp_bind. eapply wp_mono; [apply (IH (S i) t2 o2 w3)| |].
      - intros [[[r2 o3] l3] t3] w4 (m & M1 & M2). apply wp_ret. exists (S m). split; [|discriminate]. apply (did_trans [Asks id] _ w w3 w4 T3 M1).
      - intros bd w4 (m & M). exists (S m). apply (did_trans [Asks id] _ w w3 w4 T3 M). }
    destruct r as [k|]; [destruct (0 <? k) eqn:Ek|]; try apply Cont.
    apply wp_ret. exists 1%nat. split; [exact T3|discriminate].
Qed.

(** ** One entry *)
Section Entry.
Variables (E : env) (m : N).
Definition written (o len : N) (l : list act) : Prop := exists D, l = [Puts o D] /\ blen D = len.
Lemma doing_progress st w : wp (entry_progress E m st) (fun r w' => fst r = true /\ did [] w w') (fun _ w' => did [] w w') w.
Proof.
  unfold entry_progress. destruct (e_interactive E).
  - apply wp_bind, wp_trace, wp_ret. split; [reflexivity|]. apply (did_event (TProgress _)).
  - apply wp_ret. split; [reflexivity|]. apply did_refl.
Qed.
Lemma doing_write t data len o id w :
  wp (target_write E t data len o id) (fun r w' => exists l, did l w w' /\ written o len l) (fun _ w' => exists l, did l w w' /\ (l = [] \/ written o len l)) w.
Proof.
  unfold target_write. destruct (blen data <? len) eqn:El; [apply wp_ub; exists []; split; [apply did_refl|now left]|]. set (D := firstn _ data).
  assert (W : written o len [Puts o D]) by (exists D; split; [reflexivity|]; unfold D, blen in *; rewrite firstn_length; lia).
  apply wp_bind, wp_trace, wp_bind. set (w1 := add_trace _ w).
  assert (T1 : did [Puts o D] w w1) by (apply (did_event (TPut (t_ino t) o D))).
  assert (T2 : forall S0 (P : tev -> Prop) w2, (forall ev, P ev -> no_act ev) -> quiet S0 P w1 w2 -> did [Puts o D] w w2).
  { intros S0 P w2 HP Q. change [Puts o D] with ([Puts o D] ++ []). eapply did_trans; [exact T1|]. eapply did_quiet; eauto. }
  set (P0 := fun ev => match ev with TWrite _ _ _ => True | _ => False end).
  assert (HP0 : forall ev, P0 ev -> no_act ev) by (intros []; unfold no_act; cbn; tauto).
  apply (wp_frame (eq (t_ino t)) P0); [apply frame_pwriteall; [reflexivity|intros; exact Logic.I]|].
  apply wp_any; [|intros bd w2 Q; exists [Puts o D]; split; [eapply T2; eauto|now right]]. intros ok w2 Q. pose proof (T2 _ _ _ HP0 Q) as T3.
  destruct (negb ok); [apply wp_ret; exists [Puts o D]; auto|]. apply wp_bind. apply (wp_frame none never); [apply frame_add_chunk|].
  assert (T4 : forall w3, quiet none never w2 w3 -> did [Puts o D] w w3).
  { intros w3 Q3. change [Puts o D] with ([Puts o D] ++ []). eapply did_trans; [exact T3|]. eapply did_quiet; [|exact Q3]. intros ? []. }
  apply wp_any; [|intros bd w3 Q3; exists [Puts o D]; split; [now apply T4|now right]]. intros t' w3 Q3. apply wp_ret. exists [Puts o D]. split; [now apply T4|exact W].
Qed.

(** Requests for [id], if it was not asked for before, and then data written. *)
Definition part (o len : N) (id : bytes) (same : bool) (l : list act) : Prop :=
  exists k tl, l = repeat (Asks id) k ++ tl /\ (same = true -> k = 0%nat) /\ (tl = [] \/ written o len tl /\ Nat.eqb k 0 = same).
Definition whole (o len : N) (id : bytes) (same : bool) (l : list act) : Prop :=
  exists k tl, l = repeat (Asks id) k ++ tl /\ Nat.eqb k 0 = same /\ written o len tl.
Lemma whole_part o len id same l : whole o len id same l -> part o len id same l.
Proof. intros (k & tl & A & B & C). exists k, tl. split; [exact A|]. split; [intros ->; now apply Nat.eqb_eq|auto]. Qed.

Lemma doing_fetch o len id st w : 0 < len ->
  wp (entry_fetch_write E m o len id st)
    (fun r w' => exists l, did l w w' /\ part o len id (same_last id st) l /\ (fst r = true -> whole o len id (same_last id st) l))
    (fun _ w' => exists l, did l w w' /\ part o len id (same_last id st) l) w.
Proof.
  intros Hl. unfold entry_fetch_write. fold (same_last id st). set (sm := same_last id st).
  assert (Wr : forall st1 w1 k, did (repeat (Asks id) k) w w1 -> Nat.eqb k 0 = sm ->
    wp ('(ok, t) <- target_write E (m_target st1) (m_buf st1) len o id;;
        (let st2 := m_set st1 (m_store st1) t (m_last_id st1) (m_resuming st1) (m_buf st1) in if negb ok then ret (false, st2) else entry_progress E m st2))
      (fun r w' => exists l, did l w w' /\ part o len id sm l /\ (fst r = true -> whole o len id sm l)) (fun _ w' => exists l, did l w w' /\ part o len id sm l) w1).
  { intros st1 w1 k T Hk. assert (Wh : forall tl, written o len tl -> whole o len id sm (repeat (Asks id) k ++ tl)) by (intros tl H; exists k, tl; auto).
    assert (Wp : part o len id sm (repeat (Asks id) k)) by (exists k, []; split; [now rewrite app_nil_r|]; split; [intros X; rewrite X in Hk; now apply Nat.eqb_eq|now left]).
    apply wp_bind. eapply wp_mono; [apply doing_write| |].
    - intros [ok t] w2 (tl & T2 & W). cbv zeta. pose proof (did_trans _ _ _ _ _ T T2) as T3. destruct (negb ok).
      + apply wp_ret. exists (repeat (Asks id) k ++ tl). split; [exact T3|]. split; [apply whole_part, Wh, W|discriminate].
      + eapply wp_mono; [apply doing_progress| |].
        * intros r w3 (_ & P). exists (repeat (Asks id) k ++ tl). split; [rewrite <- (app_nil_r (_ ++ tl)); eapply did_trans; eauto|]. split; [apply whole_part|intros _]; apply Wh, W.
        * intros bd w3 P. exists (repeat (Asks id) k ++ tl). split; [rewrite <- (app_nil_r (_ ++ tl)); eapply did_trans; eauto|]. apply whole_part, Wh, W.
    - intros bd w2 (tl & T2 & W). exists (repeat (Asks id) k ++ tl). split; [eapply did_trans; eauto|]. destruct W as [->|W]; [now rewrite app_nil_r|apply whole_part, Wh, W]. }
  apply wp_bind. fold sm. destruct sm eqn:Es.
  - apply wp_ret. cbn [negb]. apply (Wr st w 0%nat); [apply did_refl|reflexivity].
  - assert (Pk : forall k, part o len id false (repeat (Asks id) k)) by (intros k; exists k, []; split; [now rewrite app_nil_r|]; split; [discriminate|now left]).
    destruct (m_store st) as [chain|] eqn:Ec; [|apply wp_ub; exists []; split; [apply did_refl|apply (Pk 0%nat)]]. apply wp_bind.
    eapply wp_mono; [apply (doing_chain E id chain 0 (m_target st) (m_buf st) w)| |intros bd w1 (k & T); exists (repeat (Asks id) k); auto].
    intros [[[r buf] ch] t] w1 (k & T & L). cbn [fst] in L.
    assert (Bad : exists l, did l w w1 /\ part o len id false l /\ (false = true -> whole o len id false l)) by (exists (repeat (Asks id) k); split; [exact T|split; [apply Pk|discriminate]]).
    destruct r as [k'|]; [destruct (k' =? len) eqn:Ek|]; try (apply wp_ret; cbn [negb]; apply wp_ret; exact Bad).
    apply N.eqb_eq in Ek. subst k'. apply wp_ret. cbn [negb]. apply (Wr _ w1 k); [exact T|]. apply Nat.eqb_neq, L. cbn. apply N.ltb_lt. exact Hl.
Qed.
End Entry.

(** ** All entries *)
Definition todo (f : bytes) (k i : nat) : list step := (if to_fetch f k i then [Ask (ent_id f i)] else []) ++ [Write (ent_start f i) (ent_size f i)].
Lemma steps_next f k i : (k <= i)%nat -> steps f k (S i) = steps f k i ++ todo f k i.
Proof.
  intros H. unfold steps. replace (S i - k)%nat with (S (i - k)) by lia. rewrite seq_S, flat_map_app. replace (k + (i - k))%nat with i by lia. cbn [flat_map]. rewrite app_nil_r. reflexivity.
Qed.
Lemma steps_none f k : steps f k k = []. Proof. unfold steps. now rewrite Nat.sub_diag. Qed.
Lemma steps_upto f k : forall i n, (k <= i <= n)%nat -> begins (steps f k i) (steps f k n).
Proof.
  intros i n. induction n as [|n IH]; intros H; [replace i with 0%nat by lia; apply begins_refl|]. destruct (Nat.eq_dec i (S n)) as [->|]; [apply begins_refl|]. rewrite steps_next by lia. apply begins_more, IH. lia.
Qed.
Lemma outline_whole f k i l : whole (ent_start f i) (ent_size f i) (ent_id f i) (negb (to_fetch f k i)) l -> map outline (merged l) = todo f k i /\ closed l.
Proof.
  intros (m & tl & -> & Hm & D & -> & HD). split; [|right; now exists (repeat (Asks (ent_id f i)) m), (ent_start f i), D].
  rewrite merged_block, Hm, map_app. unfold todo. cbn [map outline]. rewrite HD. now destruct (to_fetch f k i).
Qed.
Lemma merged_asks id : forall m, merged (repeat (Asks id) m) = if Nat.eqb m 0 then [] else [Asks id].
Proof. intros [|m]; [reflexivity|]. cbn [Nat.eqb]. induction m as [|m IH]; [reflexivity|]. cbn [repeat] in *. cbn [merged]. rewrite beq_refl. exact IH. Qed.
Lemma outline_part f k i l : part (ent_start f i) (ent_size f i) (ent_id f i) (negb (to_fetch f k i)) l -> begins (map outline (merged l)) (todo f k i).
Proof.
  intros (m & tl & -> & Hm & [->|(W & Hm2)]).
  - rewrite app_nil_r, merged_asks. unfold todo. destruct (to_fetch f k i).
    + destruct (Nat.eqb m 0); [apply begins_nil|]. eexists. reflexivity.
    + rewrite (Hm eq_refl). apply begins_nil.
  - destruct (outline_whole f k i (repeat (Asks (ent_id f i)) m ++ tl)) as (-> & _); [exists m, tl; auto|apply begins_refl].
Qed.

Section Whole.
Variables (E : env) (b : bool) (f : bytes) (n nn tino iino : nat) (w1 : world).
Hypothesis (Hwf : well_formed f n) (Hpos : forall i, (i < n)%nat -> 0 < ent_size f i) (Hne : iino <> tino).
Definition doing (i : nat) (st : mstate) (w2 : world) : Prop :=
  if m_resuming st then did [] w1 w2
  else exists k l, (k < i)%nat /\ did l w1 w2 /\ closed l /\ map outline (merged l) = steps f k i /\ m_skipped st = N.of_nat k.
Definition OInv (i : nat) (last : N) (st : mstate) (w2 : world) : Prop := TInv E b f nn tino iino w1 i last st w2 /\ doing i st w2.
Definition OStop (w2 : world) : Prop :=
  exists k l, (k <= n)%nat /\ did l w1 w2 /\ begins (map outline (merged l)) (steps f k n) /\ forall j, (j < k)%nat -> holds E b f j (w_files w1 tino).

Lemma OInv_stop i last st w : (i <= n)%nat -> OInv i last st w -> OStop w.
Proof.
  intros Hi ((_ & _ & _ & _ & HT) & HD). unfold so_far, doing in *. destruct (m_resuming st).
  - exists i, []. split; [exact Hi|]. split; [exact HD|]. split; [apply begins_nil|]. apply HT.
  - destruct HD as (k & l & A1 & A2 & A3 & A4 & A5). destruct HT as (k' & B1 & B2 & _ & _ & B3). assert (k' = k) as -> by lia. exists k, l. split; [lia|]. split; [exact A2|]. split; [|exact B3].
    rewrite A4. apply steps_upto. lia.
Qed.
Lemma stop_part i k l l2 w w' : (k <= i < n)%nat -> did l w1 w -> closed l -> map outline (merged l) = steps f k i -> did l2 w w' ->
  part (ent_start f i) (ent_size f i) (ent_id f i) (negb (to_fetch f k i)) l2 -> (forall j, (j < k)%nat -> holds E b f j (w_files w1 tino)) -> OStop w'.
Proof.
  intros Hi H1 H2 H3 H4 H5 H6. exists k, (l ++ l2). split; [lia|]. split; [eapply did_trans; eauto|]. split; [|exact H6].
  rewrite merged_closed, map_app, H3 by exact H2. destruct (steps_upto f k (S i) n ltac:(lia)) as (r & ->). apply begins_more. rewrite steps_next by lia. apply begins_app, outline_part, H5.
Qed.
Lemma done_whole i k l l2 w w' : (k <= i)%nat -> did l w1 w -> closed l -> map outline (merged l) = steps f k i -> did l2 w w' ->
  whole (ent_start f i) (ent_size f i) (ent_id f i) (negb (to_fetch f k i)) l2 -> exists l', did l' w1 w' /\ closed l' /\ map outline (merged l') = steps f k (S i).
Proof.
  intros Hi H1 H2 H3 H4 H5. destruct (outline_whole f k i l2 H5) as (A & B). exists (l ++ l2). split; [eapply did_trans; eauto|]. split.
  - destruct B as [->|(a & o & d & ->)]; [now rewrite app_nil_r|apply closed_app].
  - rewrite merged_closed, map_app, H3, A by exact H2. symmetry. now apply steps_next.
Qed.

Lemma doing_entry m i st w : (i < n)%nat -> OInv i (ent_start f i) st w ->
  wp (entry_cb E m (ent_start f i) (ent_size f i) (ent_id f i) st) (fun r w' => if fst r then OInv (S i) (ent_end f i) (snd r) w' else OStop w') (fun _ w' => OStop w') w.
Proof.
  intros Hi HI. pose proof (OInv_stop i _ st w ltac:(lia) HI) as HS. destruct HI as (HT & HD). pose proof (tally_entry E b f n nn tino iino w1 Hwf Hpos Hne m i st w Hi HT) as T. destruct HT as (I1 & I2 & _ & I4 & I5).
  assert (G : wp (entry_cb E m (ent_start f i) (ent_size f i) (ent_id f i) st) (fun r w' => if fst r then doing (S i) (snd r) w' else OStop w') (fun _ w' => OStop w') w).
  { unfold doing, so_far in *. unfold entry_cb. destruct (m_resuming st) eqn:Er.
    - destruct I5 as (J1 & J2 & J3 & J4 & J5 & J6 & J7). destruct (BUF_SIZE <? ent_size f i) eqn:Eb; [apply wp_ret; exact HS|].
      assert (Q0 : forall w2, quiet none never w w2 -> did [] w1 w2) by (intros w2 Q; apply (did_trans [] [] w1 w w2 HD); eapply did_quiet; [|exact Q]; intros ? []).
      assert (S0 : forall w2, did [] w1 w2 -> OStop w2) by (intros w2 D; exists i, []; split; [lia|]; split; [exact D|]; split; [apply begins_nil|exact J7]).
      apply wp_bind. apply (wp_frame none never); [apply frame_check_chunk|]. apply wp_any; [|intros bd w2 Q; apply S0, Q0, Q]. intros [[r buf] t] w2 Q. pose proof (Q0 _ Q) as D2.
      assert (Fetch : wp (entry_fetch_write E m (ent_start f i) (ent_size f i) (ent_id f i) (m_set st (m_store st) t (m_last_id st) false buf))
        (fun r w' => if fst r then if m_resuming (snd r) then did [] w1 w' else exists k l, (k < S i)%nat /\ did l w1 w' /\ closed l /\ map outline (merged l) = steps f k (S i) /\ m_skipped (snd r) = N.of_nat k else OStop w')
        (fun _ w' => OStop w') w2).
      { set (st2 := m_set st (m_store st) t (m_last_id st) false buf).
        assert (Esame : same_last (ent_id f i) st2 = negb (to_fetch f i i)) by (unfold same_last, to_fetch, st2; cbn [m_set m_last_id]; now rewrite J2, Nat.eqb_refl).
        eapply wp_mono; [apply (wp_conj _ _ _ _ _ _ _ (doing_fetch E m (ent_start f i) (ent_size f i) (ent_id f i) st2 w2 (Hpos i Hi))
          (tally_fetch E m nn (ent_start f i) (ent_size f i) (ent_id f i) st2 w2 (Hpos i Hi) I4))| |].
        - rewrite Esame. intros [ok st'] w3 ((l & L1 & L2 & L3) & K). cbn [fst snd] in *. destruct ok.
          + destruct (K eq_refl) as (_ & _ & _ & K4 & K5). unfold st2 in K4, K5. cbn [m_set m_resuming m_skipped] in K4, K5. rewrite K4, K5.
            destruct (done_whole i i [] l w2 w3 (Nat.le_refl i) D2 (or_introl eq_refl) ltac:(now rewrite steps_none) L1 (L3 eq_refl)) as (l' & X1 & X2 & X3). exists i, l'. auto.
          + apply (stop_part i i [] l w2 w3); [lia|exact D2|now left|now rewrite steps_none|exact L1|exact L2|exact J7].
        - rewrite Esame. intros bd w3 ((l & L1 & L2) & _). apply (stop_part i i [] l w2 w3); [lia|exact D2|now left|now rewrite steps_none|exact L1|exact L2|exact J7]. }
      destruct r as [[|]|]; [|exact Fetch|exact Fetch].
      eapply wp_mono; [apply (wp_conj _ _ _ _ _ _ _ (doing_progress E m _ w2) (tally_progress E m nn _ w2))| |].
      + intros [ok st'] w3 ((P0 & P1) & (_ & _ & _ & _ & _ & _ & P6 & _)). cbn [fst snd m_resuming] in *. rewrite P0, P6. apply (did_trans [] [] w1 w2 w3 D2 P1).
      + intros bd w3 (P1 & _). apply S0. apply (did_trans [] [] w1 w2 w3 D2 P1).
    - destruct HD as (k & l & M1 & M2 & M3 & M4 & M5). destruct I5 as (k' & B1 & B2 & J3 & _ & B4). assert (k' = k) as -> by lia.
      assert (Esame : same_last (ent_id f i) st = negb (to_fetch f k i)).
      { unfold same_last, to_fetch. rewrite J3. replace (Nat.eqb i k) with false by (symmetry; apply Nat.eqb_neq; lia). cbn [orb]. now rewrite negb_involutive. }
      eapply wp_mono; [apply (wp_conj _ _ _ _ _ _ _ (doing_fetch E m (ent_start f i) (ent_size f i) (ent_id f i) st w (Hpos i Hi))
          (tally_fetch E m nn (ent_start f i) (ent_size f i) (ent_id f i) st w (Hpos i Hi) I4))| |].
      + rewrite Esame. intros [ok st'] w3 ((l2 & L1 & L2 & L3) & K). cbn [fst snd] in *. destruct ok.
        * destruct (K eq_refl) as (_ & _ & _ & K4 & K5). rewrite K4, K5, Er. destruct (done_whole i k l l2 w w3 ltac:(lia) M2 M3 M4 L1 (L3 eq_refl)) as (l' & X1 & X2 & X3). exists k, l'. split; [lia|]. auto.
        * apply (stop_part i k l l2 w w3); [lia|assumption..].
      + rewrite Esame. intros bd w3 ((l2 & L1 & L2) & _). apply (stop_part i k l l2 w w3); [lia|assumption..]. }
  eapply wp_mono; [apply (wp_conj _ _ _ _ _ _ _ G T)| |].
  - intros [ok st'] w' (A & C). cbn [fst snd] in *. destruct ok; [split; assumption|exact A].
  - intros bd w' (A & _). exact A.
Qed.
End Whole.

(** ** The whole run *)
Lemma main_outline E b argv w tino f n : sane E argv w -> good_index E argv w -> (b = true -> hash_reliable E w) ->
  e_open_rw E (cmd_target argv) = Some tino -> the_index E argv w f n -> (forall i, (i < n)%nat -> 0 < ent_size f i) ->
  exists k tr, (k <= n)%nat /\ run_trace w (snd (main E argv w)) tr /\ begins (map outline (diary tr)) (steps f k n) /\ forall j, (j < k)%nat -> holds E b f j (w_files w tino).
Proof.
  intros HS HG Hb Hopen (iino & p & Ho & Hf & HV) Hpos. rewrite main_init. unfold bind.
  pose proof (wp_init E b argv w HS Hb) as H. unfold wp in H.
  assert (None0 : forall w2, (exists wk, started w wk /\ quiet0 wk w2) -> exists k tr, (k <= n)%nat /\ run_trace w w2 tr /\ begins (map outline (diary tr)) (steps f k n) /\ forall j, (j < k)%nat -> holds E b f j (w_files w tino)).
  { intros w2 (wk & (? & ->) & Q). destruct (did_quiet0 _ _ Q) as (tr & T1 & T2). exists 0%nat, tr. split; [lia|]. split; [exact T1|]. unfold diary. fold (acts tr). rewrite T2. split; [apply begins_nil|lia]. }
  destruct (init E argv w) as [[r| | |] w1] eqn:Hinit; [|apply None0, H..].
  destruct r as [su| |c]; [|apply None0; destruct H as (wk & A & B & _); eauto|apply None0; destruct H as (wk & A & B & _); eauto].
  destruct H as (wk & Hst & Q1 & HR).
  pose proof (ready_files _ _ _ _ _ _ _ Hst HR) as Hfil. destruct HS as [HE Hsv Hes Hfo Hargs Hhelp Hix Hal Hd].
  destruct HR as [R1 R2 R3 R4 R5 R6 R7 (l & R8 & R9 & R10)].
  assert (t_ino (su_target su) = tino) as Et by congruence. assert (iino = su_index su) as -> by congruence. rewrite Hf in R4.
  assert (Hn : su_n su = N.of_nat n) by (destruct HV as (V1 & _); destruct R4 as (V2 & _); lia).
  assert (Hne : su_index su <> tino) by (intros Heq; apply (Hix tino); congruence).
  assert (Hlen : (64 + 40 * n <= length f)%nat) by (destruct HV as (V1 & _); unfold blen in V1; lia).
  destruct (Hfo (su_index su)) as (Hok & Hlim). rewrite Hf in Hok, Hlim.
  assert (Hwf : well_formed f n) by (rewrite <- Hf; replace n with (N.to_nat (N.of_nat n)) by lia; apply (HG _ p _ Ho); rewrite Hf; exact HV).
  assert (D0 : did [] w w1) by (destruct Hst as (? & ->); exact (did_quiet0 _ _ Q1)).
  set (nn := length (cmd_stores argv)).
  assert (Hl : length l = nn) by (unfold nn; clear - R10; induction R10; cbn; congruence).
  assert (OInv_stop' : forall i last st w, (i <= n)%nat -> OInv E b f nn tino (su_index su) w1 i last st w -> OStop E b f n tino w1 w) by (intros; eapply OInv_stop; eassumption).
  assert (W : OStop E b f n tino w1 (snd (run_sync E su w1))).
  { apply (wp_final _ (run_sync E su) (OStop E b f n tino w1)). unfold run_sync. apply wp_bind. rewrite Hn.
    eapply wp_mono; [apply (iterate_rule (entry_cb E (N.of_nat n)) (su_index su) (su_params su) f n Hok Hlen Hlim (OInv E b f nn tino (su_index su) w1) (fun _ => OStop E b f n tino w1) (fun _ => OStop E b f n tino w1))|..].
    - intros i last a w3 HI. apply HI.
    - intros i last a w3 ev Hi HI Hsx _. pose proof HI as ((_ & _ & -> & _) & _). rewrite (not_skipped _ _ tino (su_index su)) by auto.
      rewrite (ent_len_size f n tino (su_index su)) by auto. destruct (Hwf i Hi) as (_ & B & _). rewrite N.mod_small by exact B.
      apply (doing_entry E b f n nn tino (su_index su) w1 Hwf Hpos Hne); [exact Hi|exact HI].
    - intros i last a w3 ev Hi HI _ _. apply (OInv_stop' i last a (set_io ev w3)); [lia|exact HI].
    - intros i last a w3 Hi HI _. apply (OInv_stop' i last a (set_io [] w3)); [lia|exact HI].
    - split.
      + split; [now rewrite Hfil|]. split; [exact Et|]. split; [reflexivity|]. split; [intros l' Hl'; cbn in Hl'; congruence|]. unfold so_far. cbn [initial_mstate m_resuming m_skipped m_last_id m_buf].
        split; [reflexivity|]. split; [reflexivity|]. split; [apply tally_refl|]. split; [reflexivity|]. split; [exact R5|]. split; [unfold blen; rewrite repeat_length; apply N2Nat.id|]. intros; lia.
      + unfold doing. cbn [initial_mstate m_resuming]. apply did_refl.
    - intros [ok st] w2 H. cbn [fst snd] in H. destruct ok; cbn [negb]; [|apply wp_ret; exact H]. destruct H as (last & HI). apply OInv_stop' in HI; [|lia].
      destruct (m_store st) as [ch|]; [|apply wp_ub; exact HI].
      assert (QS : forall w3, quiet none never w2 w3 -> OStop E b f n tino w1 w3).
      { intros w3 Q. destruct HI as (k & l0 & A1 & A2 & A3). exists k, l0. split; [exact A1|]. split; [|exact A3]. rewrite <- (app_nil_r l0). eapply did_trans; [exact A2|]. eapply did_quiet; [|exact Q]. intros ? []. }
      apply wp_bind. apply (wp_frame none never); [apply frame_chain_free|]. apply wp_any; [|intros bd w3 Q; now apply QS]. intros _ w3 Q. apply wp_ret. now apply QS.
    - auto. }
  destruct (run_sync E su w1) as [o w2]. cbn [snd] in *. destruct W as (k & l0 & A1 & A2 & A3 & A4). pose proof (did_trans _ _ _ _ _ D0 A2) as (tr & T1 & T2).
  exists k, tr. split; [exact A1|]. split; [exact T1|]. unfold diary. fold (acts tr). rewrite T2. cbn [app]. split; [exact A3|]. now rewrite Hfil in A4.
Qed.
Lemma main_outline_fresh E argv w tino f n : sane E argv w -> good_index E argv w ->
  e_open_rw E (cmd_target argv) = Some tino -> w_files w tino = [] -> the_index E argv w f n -> (forall i, (i < n)%nat -> 0 < ent_size f i) ->
  exists tr, run_trace w (snd (main E argv w)) tr /\ begins (map outline (diary tr)) (steps f 0 n).
Proof.
  intros HS HG Ho He Hx Hpos. destruct (main_outline E false argv w tino f n HS HG ltac:(discriminate) Ho Hx Hpos) as (k & tr & A1 & A2 & A3 & A4). exists tr. split; [exact A2|].
  destruct k as [|k]; [exact A3|]. destruct (A4 0%nat ltac:(lia)) as (X & _). rewrite He in X. specialize (Hpos 0%nat ltac:(lia)). unfold ent_size in Hpos. change (blen []) with 0 in X. lia.
Qed.

(** ** The places *)
Definition spots (l : list step) : list (N * N) := flat_map (fun s => match s with Write o len => [(o, len)] | Ask _ => [] end) l.
Lemma spots_outline l : spots (map outline l) = places l.
Proof. induction l as [|[id|o d] l IH]; [reflexivity|exact IH|]. unfold spots, places in *. cbn. now rewrite IH. Qed.
Lemma gapless_begins : forall a c o, gapless o (a ++ c) -> gapless o a.
Proof. induction a as [|(x, y) a IH]; intros c o H; [exact Logic.I|]. destruct H as (A & B). split; [exact A|]. now apply (IH c). Qed.
Lemma gapless_snoc : forall a o l, gapless o a -> gapless o (a ++ [(o + fold_right N.add 0 (map snd a), l)]).
Proof.
  induction a as [|(x, y) a IH]; intros o l H; cbn [map snd fold_right app]; [rewrite N.add_0_r; now split|]. destruct H as (-> & B). split; [reflexivity|].
  rewrite N.add_assoc. now apply IH.
Qed.
Lemma spots_steps f n k : well_formed f n -> forall i, (k <= i <= n)%nat ->
  gapless (ent_start f k) (spots (steps f k i)) /\ ent_start f k + fold_right N.add 0 (map snd (spots (steps f k i))) = ent_start f i.
Proof.
  intros Hwf i. induction i as [|i IH]; intros H; [replace k with 0%nat by lia; cbn; split; [exact Logic.I|lia]|].
  destruct (Nat.eq_dec k (S i)) as [->|]; [rewrite steps_none; cbn [spots flat_map map fold_right gapless]; split; [exact Logic.I|lia]|].
  destruct (IH ltac:(lia)) as (A & B). rewrite steps_next by lia. unfold spots in *. rewrite flat_map_app.
  assert (Et : flat_map (fun s => match s with Write o len => [(o, len)] | Ask _ => [] end) (todo f k i) = [(ent_start f i, ent_size f i)]) by (unfold todo; now destruct (to_fetch f k i)).
  rewrite Et, map_app. split; [rewrite <- B; now apply gapless_snoc|]. rewrite fold_right_app. cbn [map snd fold_right].
  assert (F : forall l c, fold_right N.add c l = fold_right N.add 0 l + c) by (induction l as [|x l IHl]; intros c; cbn [fold_right]; [lia|rewrite IHl; lia]).
  rewrite F, N.add_0_r, N.add_assoc, B. change (ent_start f (S i)) with (ent_end f i). destruct (Hwf i ltac:(lia)) as (X & _). unfold ent_size. lia.
Qed.
Lemma main_gapless E argv w tino f n : sane E argv w -> good_index E argv w ->
  e_open_rw E (cmd_target argv) = Some tino -> the_index E argv w f n -> (forall i, (i < n)%nat -> 0 < ent_size f i) ->
  exists k tr, (k <= n)%nat /\ run_trace w (snd (main E argv w)) tr /\ gapless (ent_start f k) (places (diary tr)) /\ ent_start f k <= blen (w_files w tino) /\
    ent_start f k + fold_right N.add 0 (map snd (places (diary tr))) <= ent_start f n.
Proof.
  intros HS HG Ho Hx Hpos. destruct (main_outline E false argv w tino f n HS HG ltac:(discriminate) Ho Hx Hpos) as (k & tr & A1 & A2 & (r & A3) & A4). exists k, tr. split; [exact A1|]. split; [exact A2|].
  assert (Hwf : well_formed f n) by (destruct Hx as (iino & p & Hi & <- & HV); replace n with (N.to_nat (N.of_nat n)) by lia; now apply (HG _ p _ Hi)).
  destruct (spots_steps f n k Hwf n ltac:(lia)) as (B1 & B2). rewrite A3 in B1, B2. unfold spots in B1, B2. rewrite flat_map_app in B1, B2. fold (spots (map outline (diary tr))) in B1, B2. rewrite spots_outline in B1, B2.
  split; [now apply gapless_begins in B1|]. split.
  - destruct k as [|k]; [cbn; lia|]. destruct (A4 k ltac:(lia)) as (X & _). exact X.
  - rewrite map_app, fold_right_app in B2. revert B2. generalize (map snd (places (diary tr))). intros l. match goal with |- context [fold_right N.add ?c l] => generalize c end. intros c B2. rewrite <- B2.
    assert (F : forall l c, fold_right N.add c l = fold_right N.add 0 l + c) by (clear; induction l as [|x l IHl]; intros c; cbn [fold_right]; [lia|rewrite IHl; lia]). rewrite (F l c). lia.
Qed.
