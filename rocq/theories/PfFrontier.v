(** However a run ends, the target holds what was written into it up to a point, and what was there before after it (C101). *)
From Verif Require Import Base Lib Utils Sha Chunker Caibx Index StoreLocal Target StoreHttp Chain Ui MainProg
  SpecBasic SpecEnv SpecChunker SpecStore SpecHttp SpecCaibx SpecMain SpecRun SpecOrder SpecStats SpecReport SpecSource SpecDiary SpecOutline SpecFrontier
  PfUtils PfBasic PfRead PfIO PfCaibx PfFrame PfLocal PfTarget PfChain PfMain PfMain2 PfSetup PfRun PfReadonly PfTally PfDiary PfOutline PfPatch PfSync.
Local Open Scope N_scope.

(** [laid] and [laid_by] in terms of the writing of the model. *)
Definition lay (g : bytes) (l : list act) : bytes := fold_left (fun g a => match a with Puts o d => fw g (N.to_nat o) d | Asks _ => g end) l g.
Definition lay_by (g : bytes) (l : list act) (g' : bytes) : Prop :=
  g' = lay g l \/ exists l0 o d q, l = l0 ++ [Puts o d] /\ g' = fw (lay g l0) (N.to_nat o) (firstn q d).
Lemma lay_app g a c : lay g (a ++ c) = lay (lay g a) c. Proof. apply fold_left_app. Qed.
Lemma lay_asks id : forall m g, lay g (repeat (Asks id) m) = g. Proof. induction m as [|m IH]; intros g; [reflexivity|apply (IH g)]. Qed.
Lemma lay_by_app g g1 g2 a c : g1 = lay g a -> lay_by g1 c g2 -> lay_by g (a ++ c) g2.
Proof.
  intros -> [->|(l0 & o & d & q & -> & ->)]; [left; symmetry; apply lay_app|]. right. exists (a ++ l0), o, d, q. split; [apply app_assoc|]. now rewrite lay_app.
Qed.
Lemma lay_merged : forall l g, lay g (merged l) = lay g l.
Proof.
  induction l as [|[a|o d] l IH]; intros g; [reflexivity| |].
  - destruct l as [|[c|o d] l]; [reflexivity| |].
    + specialize (IH g). cbn [merged] in *. destruct (beq a c); exact IH.
    + exact (IH g).
  - exact (IH (fw g (N.to_nat o) d)).
Qed.
Lemma merged_last o d : forall l, exists l', merged (l ++ [Puts o d]) = l' ++ [Puts o d] /\ forall g, lay g l' = lay g l.
Proof.
  induction l as [|[a|o1 d1] l (l' & A & B)]; [exists []; auto| |].
  - destruct l as [|[c|o2 d2] l]; [exists [Asks a]; auto| |].
    + cbn [app merged] in *. destruct (beq a c); [exists l'; auto|]. rewrite A. exists (Asks a :: l'). split; [reflexivity|]. intros g. apply (B g).
    + cbn [app] in *. change (merged (Asks a :: Puts o2 d2 :: l ++ [Puts o d])) with (Asks a :: merged (Puts o2 d2 :: l ++ [Puts o d])). rewrite A. exists (Asks a :: l'). split; [reflexivity|]. intros g. apply (B g).
  - cbn [app merged] in *. rewrite A. exists (Puts o1 d1 :: l'). split; [reflexivity|]. intros g. apply (B (fw g (N.to_nat o1) d1)).
Qed.
Lemma lay_by_merged g l g' : lay_by g l g' -> lay_by g (merged l) g'.
Proof.
  intros [->|(l0 & o & d & q & -> & ->)]; [left; symmetry; apply lay_merged|]. destruct (merged_last o d l0) as (l' & A & B). right. exists l', o, d, q. split; [exact A|]. now rewrite B.
Qed.

(** What was done, and what this made of the target. *)
Section Did.
Variable tino : nat.
Definition dc (l : list act) (w w' : world) : Prop := did l w w' /\ w_files w' tino = lay (w_files w tino) l.
Definition dp (l : list act) (w w' : world) : Prop := did l w w' /\ lay_by (w_files w tino) l (w_files w' tino).
Lemma dc_dp l w w' : dc l w w' -> dp l w w'. Proof. intros (A & B). split; [exact A|now left]. Qed.
Lemma dc_trans a c w w1 w2 : dc a w w1 -> dc c w1 w2 -> dc (a ++ c) w w2.
Proof. intros (A & B) (C & D). split; [eapply did_trans; eauto|]. now rewrite lay_app, <- B. Qed.
Lemma dc_dp_trans a c w w1 w2 : dc a w w1 -> dp c w1 w2 -> dp (a ++ c) w w2.
Proof. intros (A & B) (C & D). split; [eapply did_trans; eauto|]. eapply lay_by_app; eauto. Qed.
Lemma dp_quiet l w w1 w2 : dp l w w1 -> did [] w1 w2 -> w_files w2 tino = w_files w1 tino -> dp l w w2.
Proof. intros (A & B) C D. split; [rewrite <- (app_nil_r l); eapply did_trans; eauto|]. now rewrite D. Qed.
Lemma dc_refl w : dc [] w w. Proof. split; [apply did_refl|reflexivity]. Qed.

Section Entry.
Variables (E : env) (m : N).
Lemma lay_chain id l i t out w :
  wp (chain_loop E i l t id out) (fun x w' => t_ino (snd x) = t_ino t /\ exists m, dc (repeat (Asks id) m) w w' /\ (has_data (fst (fst (fst x))) = true -> m <> 0%nat))
    (fun _ w' => exists m, dc (repeat (Asks id) m) w w') w.
Proof.
  assert (F := frame_chain_loop none (fun _ => True) E ltac:(intros; exact Logic.I) ltac:(intros; exact Logic.I) ltac:(intros; exact Logic.I) ltac:(intros; exact Logic.I) ltac:(intros; exact Logic.I) l i t id out).
  apply (wp_frame none (fun _ => True)); [exact F|]. eapply wp_mono; [apply (wp_conj _ _ _ _ _ _ _ (doing_chain E id l i t out w) (gives_wp _ _ none (fun _ => True) _ w (gives_chain E id l i t out) F))| |].
  - intros x w' ((k & A & B) & Q & G) (Q2 & _). split; [exact G|]. exists k. split; [|exact B]. split; [exact A|]. rewrite lay_asks. apply Q2. intros [].
  - intros bd w' ((k & A) & _) (Q2 & _). exists k. split; [exact A|]. rewrite lay_asks. apply Q2. intros [].
Qed.
Lemma lay_progress st w : wp (entry_progress E m st) (fun r w' => fst r = true /\ dc [] w w') (fun _ w' => dc [] w w') w.
Proof.
  unfold entry_progress. destruct (e_interactive E).
  - apply wp_bind, wp_trace, wp_ret. split; [reflexivity|]. split; [apply (did_event (TProgress _))|reflexivity].
  - apply wp_ret. split; [reflexivity|]. apply dc_refl.
Qed.
Lemma lay_write t data len o id w : t_ino t = tino ->
  wp (target_write E t data len o id) (fun r w' => exists l, dp l w w' /\ written o len l /\ (fst r = true -> dc l w w')) (fun _ w' => exists l, dp l w w' /\ (l = [] \/ written o len l)) w.
Proof.
  intros Ht. unfold target_write. destruct (blen data <? len) eqn:El; [apply wp_ub; exists []; split; [apply dc_dp, dc_refl|now left]|]. set (D := firstn _ data).
  assert (W : written o len [Puts o D]) by (exists D; split; [reflexivity|]; unfold D, blen in *; rewrite firstn_length; lia).
  apply wp_bind, wp_trace, wp_bind. set (w1 := add_trace _ w).
  assert (T1 : did [Puts o D] w w1) by (apply (did_event (TPut (t_ino t) o D))).
  assert (T2 : forall n w2, put (t_ino t) D o n w1 w2 -> dp [Puts o D] w w2 /\ (n = length D -> dc [Puts o D] w w2)).
  { intros n w2 (P1 & P2 & _ & new & P3 & _). assert (T : did [Puts o D] w w2).
    { change [Puts o D] with ([Puts o D] ++ []). eapply did_trans; [exact T1|]. exists (map (wev (t_ino t)) new). split; [exact P3|]. unfold acts. rewrite <- map_rev. clear. induction (rev new) as [|a l IH]; [reflexivity|exact IH]. }
    change (w_files w1 (t_ino t)) with (w_files w (t_ino t)) in P2. rewrite Ht in P2. split.
    - split; [exact T|]. right. exists [], o, D, n. split; [reflexivity|]. exact P2.
    - intros ->. rewrite firstn_all in P2. split; [exact T|]. exact P2. }
  apply wp_put.
  - intros ok n w2 P Hok _ _ _. destruct (T2 _ _ P) as (A & B). destruct ok; cbn [negb].
    + specialize (B (Hok eq_refl)). apply wp_bind. apply (wp_frame none never); [apply frame_add_chunk|].
      assert (T4 : forall w3, quiet none never w2 w3 -> dc [Puts o D] w w3).
      { intros w3 Q3. change [Puts o D] with ([Puts o D] ++ []). eapply dc_trans; [exact B|]. split; [eapply did_quiet; [|exact Q3]; intros ? []|]. apply Q3. intros []. }
      apply wp_any; [|intros bd w3 Q3; exists [Puts o D]; split; [now apply dc_dp, T4|now right]]. intros t' w3 Q3. apply wp_ret. exists [Puts o D]. split; [now apply dc_dp, T4|]. split; [exact W|]. intros _. now apply T4.
    + apply wp_ret. exists [Puts o D]. split; [exact A|]. split; [exact W|discriminate].
  - intros bd n w2 P _ _. exists [Puts o D]. split; [apply (T2 _ _ P)|now right].
Qed.
Lemma lay_fetch o len id st w : 0 < len -> t_ino (m_target st) = tino ->
  wp (entry_fetch_write E m o len id st)
    (fun r w' => exists l, dp l w w' /\ part o len id (same_last id st) l /\ (fst r = true -> whole o len id (same_last id st) l /\ dc l w w'))
    (fun _ w' => exists l, dp l w w' /\ part o len id (same_last id st) l) w.
Proof.
  intros Hl Ht. unfold entry_fetch_write. fold (same_last id st). set (sm := same_last id st).
  assert (Wr : forall st1 w1 k, dc (repeat (Asks id) k) w w1 -> Nat.eqb k 0 = sm -> t_ino (m_target st1) = tino ->
    wp ('(ok, t) <- target_write E (m_target st1) (m_buf st1) len o id;;
        (let st2 := m_set st1 (m_store st1) t (m_last_id st1) (m_resuming st1) (m_buf st1) in if negb ok then ret (false, st2) else entry_progress E m st2))
      (fun r w' => exists l, dp l w w' /\ part o len id sm l /\ (fst r = true -> whole o len id sm l /\ dc l w w')) (fun _ w' => exists l, dp l w w' /\ part o len id sm l) w1).
  { intros st1 w1 k T Hk Ht1. assert (Wh : forall tl, written o len tl -> whole o len id sm (repeat (Asks id) k ++ tl)) by (intros tl H; exists k, tl; auto).
    assert (Wp : part o len id sm (repeat (Asks id) k)) by (exists k, []; split; [now rewrite app_nil_r|]; split; [intros X; rewrite X in Hk; now apply Nat.eqb_eq|now left]).
    apply wp_bind. eapply wp_mono; [apply (lay_write _ _ _ _ _ _ Ht1)| |].
    - intros [ok t] w2 (tl & T2 & W & T2'). cbv zeta. pose proof (dc_dp_trans _ _ _ _ _ T T2) as T3. cbn [fst] in T2'. destruct ok; cbn [negb].
      + pose proof (dc_trans _ _ _ _ _ T (T2' eq_refl)) as T4. eapply wp_mono; [apply lay_progress| |].
        * intros r w3 (_ & P). assert (T5 : dc (repeat (Asks id) k ++ tl) w w3) by (rewrite <- (app_nil_r (_ ++ tl)); eapply dc_trans; eauto).
          exists (repeat (Asks id) k ++ tl). split; [now apply dc_dp|]. split; [apply whole_part, Wh, W|intros _; split; [apply Wh, W|exact T5]].
        * intros bd w3 P. exists (repeat (Asks id) k ++ tl). split; [rewrite <- (app_nil_r (_ ++ tl)); apply dc_dp; eapply dc_trans; eauto|]. apply whole_part, Wh, W.
      + apply wp_ret. exists (repeat (Asks id) k ++ tl). split; [exact T3|]. split; [apply whole_part, Wh, W|discriminate].
    - intros bd w2 (tl & T2 & W). exists (repeat (Asks id) k ++ tl). split; [eapply dc_dp_trans; eauto|]. destruct W as [->|W]; [now rewrite app_nil_r|apply whole_part, Wh, W]. }
  apply wp_bind. fold sm. destruct sm eqn:Es.
  - apply wp_ret. cbn [negb]. apply (Wr st w 0%nat); [apply dc_refl|reflexivity|exact Ht].
  - assert (Pk : forall k, part o len id false (repeat (Asks id) k)) by (intros k; exists k, []; split; [now rewrite app_nil_r|]; split; [discriminate|now left]).
    destruct (m_store st) as [chain|] eqn:Ec; [|apply wp_ub; exists []; split; [apply dc_dp, dc_refl|apply (Pk 0%nat)]]. apply wp_bind.
    eapply wp_mono; [apply (lay_chain id chain 0 (m_target st) (m_buf st) w)| |intros bd w1 (k & T); exists (repeat (Asks id) k); split; [now apply dc_dp|apply Pk]].
    intros [[[r buf] ch] t] w1 (G & k & T & L). cbn [fst snd] in L, G.
    assert (Bad : exists l, dp l w w1 /\ part o len id false l /\ (false = true -> whole o len id false l /\ dc l w w1)) by (exists (repeat (Asks id) k); split; [now apply dc_dp|split; [apply Pk|discriminate]]).
    destruct r as [k'|]; [destruct (k' =? len) eqn:Ek|]; try (apply wp_ret; cbn [negb]; apply wp_ret; exact Bad).
    apply N.eqb_eq in Ek. subst k'. apply wp_ret. cbn [negb]. apply (Wr _ w1 k); [exact T| |cbn; congruence]. apply Nat.eqb_neq, L. cbn. apply N.ltb_lt. exact Hl.
Qed.
End Entry.
End Did.

(** ** All entries *)
Section Whole.
Variables (E : env) (b : bool) (f : bytes) (n nn tino iino : nat) (w1 : world).
Hypothesis (Hwf : well_formed f n) (Hpos : forall i, (i < n)%nat -> 0 < ent_size f i) (Hne : iino <> tino).
Definition laying (i : nat) (st : mstate) (w2 : world) : Prop :=
  if m_resuming st then dc tino [] w1 w2
  else exists k l, (k < i)%nat /\ dc tino l w1 w2 /\ closed l /\ map outline (merged l) = steps f k i /\ m_skipped st = N.of_nat k.
Definition FInv (i : nat) (last : N) (st : mstate) (w2 : world) : Prop := TInv E b f nn tino iino w1 i last st w2 /\ laying i st w2.
Definition FStop (w2 : world) : Prop :=
  exists k l, (k <= n)%nat /\ dp tino l w1 w2 /\ begins (map outline (merged l)) (steps f k n) /\ forall j, (j < k)%nat -> holds E b f j (w_files w1 tino).

Lemma FInv_stop i last st w : (i <= n)%nat -> FInv i last st w -> FStop w.
Proof.
  intros Hi ((_ & _ & _ & _ & HT) & HD). unfold so_far, laying in *. destruct (m_resuming st).
  - exists i, []. split; [exact Hi|]. split; [apply dc_dp, HD|]. split; [apply begins_nil|]. apply HT.
  - destruct HD as (k & l & A1 & A2 & A3 & A4 & A5). destruct HT as (k' & B1 & B2 & _ & _ & B3). assert (k' = k) as -> by lia. exists k, l. split; [lia|]. split; [apply dc_dp, A2|]. split; [|exact B3].
    rewrite A4. apply steps_upto. lia.
Qed.
Lemma halt_part i k l l2 w w' : (k <= i < n)%nat -> dc tino l w1 w -> closed l -> map outline (merged l) = steps f k i -> dp tino l2 w w' ->
  part (ent_start f i) (ent_size f i) (ent_id f i) (negb (to_fetch f k i)) l2 -> (forall j, (j < k)%nat -> holds E b f j (w_files w1 tino)) -> FStop w'.
Proof.
  intros Hi H1 H2 H3 H4 H5 H6. exists k, (l ++ l2). split; [lia|]. split; [eapply dc_dp_trans; eauto|]. split; [|exact H6].
  rewrite merged_closed, map_app, H3 by exact H2. destruct (steps_upto f k (S i) n ltac:(lia)) as (r & ->). apply begins_more. rewrite steps_next by lia. apply begins_app, outline_part, H5.
Qed.
Lemma laid_whole i k l l2 w w' : (k <= i)%nat -> dc tino l w1 w -> closed l -> map outline (merged l) = steps f k i -> dc tino l2 w w' ->
  whole (ent_start f i) (ent_size f i) (ent_id f i) (negb (to_fetch f k i)) l2 -> exists l', dc tino l' w1 w' /\ closed l' /\ map outline (merged l') = steps f k (S i).
Proof.
  intros Hi H1 H2 H3 H4 H5. destruct (outline_whole f k i l2 H5) as (A & B). exists (l ++ l2). split; [eapply dc_trans; eauto|]. split.
  - destruct B as [->|(a & o & d & ->)]; [now rewrite app_nil_r|apply closed_app].
  - rewrite merged_closed, map_app, H3, A by exact H2. symmetry. now apply steps_next.
Qed.

Lemma lay_entry m i st w : (i < n)%nat -> FInv i (ent_start f i) st w ->
  wp (entry_cb E m (ent_start f i) (ent_size f i) (ent_id f i) st) (fun r w' => if fst r then FInv (S i) (ent_end f i) (snd r) w' else FStop w') (fun _ w' => FStop w') w.
Proof.
  intros Hi HI. pose proof (FInv_stop i _ st w ltac:(lia) HI) as HS. destruct HI as (HT & HD). pose proof (tally_entry E b f n nn tino iino w1 Hwf Hpos Hne m i st w Hi HT) as T. destruct HT as (I1 & I2 & _ & I4 & I5).
  assert (G : wp (entry_cb E m (ent_start f i) (ent_size f i) (ent_id f i) st) (fun r w' => if fst r then laying (S i) (snd r) w' else FStop w') (fun _ w' => FStop w') w).
  { unfold laying, so_far in *. unfold entry_cb. destruct (m_resuming st) eqn:Er.
    - destruct I5 as (J1 & J2 & J3 & J4 & J5 & J6 & J7). destruct (BUF_SIZE <? ent_size f i) eqn:Eb; [apply wp_ret; exact HS|].
      assert (Q0 : forall w2, quiet none never w w2 -> dc tino [] w1 w2) by (intros w2 Q; apply (dc_trans tino [] [] w1 w w2 HD); split; [eapply did_quiet; [|exact Q]; intros ? []|apply Q; intros []]).
      assert (S0 : forall w2, dc tino [] w1 w2 -> FStop w2) by (intros w2 D; exists i, []; split; [lia|]; split; [apply dc_dp, D|]; split; [apply begins_nil|exact J7]).
      apply wp_bind. apply (wp_frame none never); [apply frame_check_chunk|]. eapply wp_mono; [apply (gives_wp _ _ none never _ w (gives_check E (m_target st) (m_buf st) (ent_size f i) (ent_start f i) (ent_id f i)) (frame_check_chunk none never E _ _ _ _ _))| |intros bd w2 _ Q; apply S0, Q0, Q]. intros [[r buf] t] w2 (_ & Ht2) Q. cbn [snd] in Ht2. rewrite I2 in Ht2. pose proof (Q0 _ Q) as D2.
      assert (Fetch : wp (entry_fetch_write E m (ent_start f i) (ent_size f i) (ent_id f i) (m_set st (m_store st) t (m_last_id st) false buf))
        (fun r w' => if fst r then if m_resuming (snd r) then dc tino [] w1 w' else exists k l, (k < S i)%nat /\ dc tino l w1 w' /\ closed l /\ map outline (merged l) = steps f k (S i) /\ m_skipped (snd r) = N.of_nat k else FStop w')
        (fun _ w' => FStop w') w2).
      { set (st2 := m_set st (m_store st) t (m_last_id st) false buf).
        assert (Esame : same_last (ent_id f i) st2 = negb (to_fetch f i i)) by (unfold same_last, to_fetch, st2; cbn [m_set m_last_id]; now rewrite J2, Nat.eqb_refl).
        eapply wp_mono; [apply (wp_conj _ _ _ _ _ _ _ (lay_fetch tino E m (ent_start f i) (ent_size f i) (ent_id f i) st2 w2 (Hpos i Hi) Ht2)
          (tally_fetch E m nn (ent_start f i) (ent_size f i) (ent_id f i) st2 w2 (Hpos i Hi) I4))| |].
        - rewrite Esame. intros [ok st'] w3 ((l & L1 & L2 & L3) & K). cbn [fst snd] in *. destruct ok.
          + destruct (K eq_refl) as (_ & _ & _ & K4 & K5). unfold st2 in K4, K5. cbn [m_set m_resuming m_skipped] in K4, K5. rewrite K4, K5.
            destruct (laid_whole i i [] l w2 w3 (Nat.le_refl i) D2 (or_introl eq_refl) ltac:(now rewrite steps_none) (proj2 (L3 eq_refl)) (proj1 (L3 eq_refl))) as (l' & X1 & X2 & X3). exists i, l'. auto.
          + apply (halt_part i i [] l w2 w3); [lia|exact D2|now left|now rewrite steps_none|exact L1|exact L2|exact J7].
        - rewrite Esame. intros bd w3 ((l & L1 & L2) & _). apply (halt_part i i [] l w2 w3); [lia|exact D2|now left|now rewrite steps_none|exact L1|exact L2|exact J7]. }
      destruct r as [[|]|]; [|exact Fetch|exact Fetch].
      eapply wp_mono; [apply (wp_conj _ _ _ _ _ _ _ (lay_progress tino E m _ w2) (tally_progress E m nn _ w2))| |].
      + intros [ok st'] w3 ((P0 & P1) & (_ & _ & _ & _ & _ & _ & P6 & _)). cbn [fst snd m_resuming] in *. rewrite P0, P6. apply (dc_trans tino [] [] w1 w2 w3 D2 P1).
      + intros bd w3 (P1 & _). apply S0. apply (dc_trans tino [] [] w1 w2 w3 D2 P1).
    - destruct HD as (k & l & M1 & M2 & M3 & M4 & M5). destruct I5 as (k' & B1 & B2 & J3 & _ & B4). assert (k' = k) as -> by lia.
      assert (Esame : same_last (ent_id f i) st = negb (to_fetch f k i)).
      { unfold same_last, to_fetch. rewrite J3. replace (Nat.eqb i k) with false by (symmetry; apply Nat.eqb_neq; lia). cbn [orb]. now rewrite negb_involutive. }
      eapply wp_mono; [apply (wp_conj _ _ _ _ _ _ _ (lay_fetch tino E m (ent_start f i) (ent_size f i) (ent_id f i) st w (Hpos i Hi) I2)
          (tally_fetch E m nn (ent_start f i) (ent_size f i) (ent_id f i) st w (Hpos i Hi) I4))| |].
      + rewrite Esame. intros [ok st'] w3 ((l2 & L1 & L2 & L3) & K). cbn [fst snd] in *. destruct ok.
        * destruct (K eq_refl) as (_ & _ & _ & K4 & K5). rewrite K4, K5, Er. destruct (laid_whole i k l l2 w w3 ltac:(lia) M2 M3 M4 (proj2 (L3 eq_refl)) (proj1 (L3 eq_refl))) as (l' & X1 & X2 & X3). exists k, l'. split; [lia|]. auto.
        * apply (halt_part i k l l2 w w3); [lia|assumption..].
      + rewrite Esame. intros bd w3 ((l2 & L1 & L2) & _). apply (halt_part i k l l2 w w3); [lia|assumption..]. }
  eapply wp_mono; [apply (wp_conj _ _ _ _ _ _ _ G T)| |].
  - intros [ok st'] w' (A & C). cbn [fst snd] in *. destruct ok; [split; assumption|exact A].
  - intros bd w' (A & _). exact A.
Qed.
End Whole.

(** ** The whole run *)
Lemma main_lay E b argv w tino f n : sane E argv w -> good_index E argv w -> (b = true -> hash_reliable E w) ->
  e_open_rw E (cmd_target argv) = Some tino -> the_index E argv w f n -> (forall i, (i < n)%nat -> 0 < ent_size f i) ->
  exists k tr, (k <= n)%nat /\ run_trace w (snd (main E argv w)) tr /\ begins (map outline (diary tr)) (steps f k n) /\ (forall j, (j < k)%nat -> holds E b f j (w_files w tino)) /\
    lay_by (w_files w tino) (diary tr) (w_files (snd (main E argv w)) tino).
Proof.
  intros HS HG Hb Hopen (iino & p & Ho & Hf & HV) Hpos. rewrite main_init. unfold bind.
  pose proof (wp_init E b argv w HS Hb) as H. unfold wp in H.
  assert (None0 : forall w2, (exists wk, started w wk /\ quiet0 wk w2) -> exists k tr, (k <= n)%nat /\ run_trace w w2 tr /\ begins (map outline (diary tr)) (steps f k n) /\ (forall j, (j < k)%nat -> holds E b f j (w_files w tino)) /\ lay_by (w_files w tino) (diary tr) (w_files w2 tino)).
  { intros w2 (wk & (? & ->) & Q). destruct (did_quiet0 _ _ Q) as (tr & T1 & T2). exists 0%nat, tr. split; [lia|]. split; [exact T1|]. unfold diary. fold (acts tr). rewrite T2. split; [apply begins_nil|]. split; [lia|]. left. exact (quiet0_files _ _ Q tino). }
  destruct (init E argv w) as [[r| | |] w1] eqn:Hinit; [|apply None0, H..].
  destruct r as [su| |c]; [|apply None0; destruct H as (wk & A & B & _); eauto|apply None0; destruct H as (wk & A & B & _); eauto].
  destruct H as (wk & Hst & Q1 & HR).
  pose proof (ready_files _ _ _ _ _ _ _ Hst HR) as Hfil. destruct HS as [HE Hsv Hes Hfo Hargs Hhelp Hix Hal Hd].
  destruct HR as [R1 R2 R3 R4 R5 R6 R7 (l & R8 & R9 & R10)].
  assert (t_ino (su_target su) = tino) as Et by congruence. assert (iino = su_index su) as -> by congruence. rewrite Hf in R4.
  assert (Hn : su_n su = N.of_nat n) by (destruct HV as (V1 & _); destruct R4 as (V2 & _); lia).
  assert (Hne : su_index su <> tino) by (intros Heq; apply (Hix tino); congruence).
  assert (Hlen : (64 + 40 * n <= length f)%nat) by (destruct HV as (V1 & _); unfold blen in V1; lia).
  destruct (Hfo (su_index su)) as (Hok & Hlim). rewrite Hf in Hok, Hlim.
  assert (Hwf : well_formed f n) by (rewrite <- Hf; replace n with (N.to_nat (N.of_nat n)) by lia; apply (HG _ p _ Ho); rewrite Hf; exact HV).
  assert (D0 : did [] w w1) by (destruct Hst as (? & ->); exact (did_quiet0 _ _ Q1)).
  set (nn := length (cmd_stores argv)).
  assert (Hl : length l = nn) by (unfold nn; clear - R10; induction R10; cbn; congruence).
  assert (FInv_stop' : forall i last st w, (i <= n)%nat -> FInv E b f nn tino (su_index su) w1 i last st w -> FStop E b f n tino w1 w) by (intros; eapply FInv_stop; eassumption).
  assert (W : FStop E b f n tino w1 (snd (run_sync E su w1))).
  { apply (wp_final _ (run_sync E su) (FStop E b f n tino w1)). unfold run_sync. apply wp_bind. rewrite Hn.
    eapply wp_mono; [apply (iterate_rule (entry_cb E (N.of_nat n)) (su_index su) (su_params su) f n Hok Hlen Hlim (FInv E b f nn tino (su_index su) w1) (fun _ => FStop E b f n tino w1) (fun _ => FStop E b f n tino w1))|..].
    - intros i last a w3 HI. apply HI.
    - intros i last a w3 ev Hi HI Hsx _. pose proof HI as ((_ & _ & -> & _) & _). rewrite (not_skipped _ _ tino (su_index su)) by auto.
      rewrite (ent_len_size f n tino (su_index su)) by auto. destruct (Hwf i Hi) as (_ & B & _). rewrite N.mod_small by exact B.
      apply (lay_entry E b f n nn tino (su_index su) w1 Hwf Hpos Hne); [exact Hi|exact HI].
    - intros i last a w3 ev Hi HI _ _. apply (FInv_stop' i last a (set_io ev w3)); [lia|exact HI].
    - intros i last a w3 Hi HI _. apply (FInv_stop' i last a (set_io [] w3)); [lia|exact HI].
    - split.
      + split; [now rewrite Hfil|]. split; [exact Et|]. split; [reflexivity|]. split; [intros l' Hl'; cbn in Hl'; congruence|]. unfold so_far. cbn [initial_mstate m_resuming m_skipped m_last_id m_buf].
        split; [reflexivity|]. split; [reflexivity|]. split; [apply tally_refl|]. split; [reflexivity|]. split; [exact R5|]. split; [unfold blen; rewrite repeat_length; apply N2Nat.id|]. intros; lia.
      + unfold laying. cbn [initial_mstate m_resuming]. apply dc_refl.
    - intros [ok st] w2 H. cbn [fst snd] in H. destruct ok; cbn [negb]; [|apply wp_ret; exact H]. destruct H as (last & HI). apply FInv_stop' in HI; [|lia].
      destruct (m_store st) as [ch|]; [|apply wp_ub; exact HI].
      assert (QS : forall w3, quiet none never w2 w3 -> FStop E b f n tino w1 w3).
      { intros w3 Q. destruct HI as (k & l0 & A1 & A2 & A3). exists k, l0. split; [exact A1|]. split; [|exact A3]. eapply dp_quiet; [exact A2|eapply did_quiet; [|exact Q]; intros ? []|]. apply Q. intros []. }
      apply wp_bind. apply (wp_frame none never); [apply frame_chain_free|]. apply wp_any; [|intros bd w3 Q; now apply QS]. intros _ w3 Q. apply wp_ret. now apply QS.
    - auto. }
  destruct (run_sync E su w1) as [o w2]. cbn [snd] in *. destruct W as (k & l0 & A1 & (A2 & A5) & A3 & A4). pose proof (did_trans _ _ _ _ _ D0 A2) as (tr & T1 & T2).
  exists k, tr. split; [exact A1|]. split; [exact T1|]. unfold diary. fold (acts tr). rewrite T2. cbn [app]. split; [exact A3|]. rewrite Hfil in A4, A5. split; [exact A4|]. apply lay_by_merged, A5.
Qed.

(** ** A single frontier *)
Definition data_of (l : list act) : bytes := flat_map (fun a => match a with Puts _ d => d | Asks _ => [] end) l.
Lemma over_fw g off d : (off <= length g)%nat -> over g off d = fw g off d. Proof. intros H. symmetry. now apply fw_eq. Qed.
Lemma gapless_app : forall a c o, gapless o (places a ++ c) <-> gapless o (places a) /\ gapless (o + blen (data_of a)) c.
Proof.
  induction a as [|[id|x d] a IH]; intros c o.
  - cbn. rewrite N.add_0_r. tauto.
  - apply (IH c o).
  - change (places (Puts x d :: a)) with ((x, blen d) :: places a). change (data_of (Puts x d :: a)) with (d ++ data_of a). cbn [app gapless]. rewrite IH.
    replace (blen (d ++ data_of a)) with (blen d + blen (data_of a)) by (unfold blen; rewrite app_length; lia). rewrite N.add_assoc.
    split; [intros (-> & A & B); auto|intros ((-> & A) & B); auto].
Qed.
Lemma lay_gapless : forall l g off, off <= blen g -> gapless off (places l) -> lay g l = laid g l /\ lay g l = fw g (N.to_nat off) (data_of l).
Proof.
  induction l as [|[id|o d] l IH]; intros g off Hg Hl; [now split|now apply IH|].
  change (places (Puts o d :: l)) with ((o, blen d) :: places l) in Hl. destruct Hl as (-> & Hl). change (data_of (Puts off d :: l)) with (d ++ data_of l).
  change (lay g (Puts off d :: l)) with (lay (fw g (N.to_nat off) d) l). change (laid g (Puts off d :: l)) with (laid (over g (N.to_nat off) d) l).
  rewrite over_fw by (unfold blen in Hg; lia). pose proof (PfMain.length_fw g (N.to_nat off) d ltac:(unfold blen in Hg; lia)) as (L & _).
  destruct (IH (fw g (N.to_nat off) d) (off + blen d) ltac:(unfold blen in *; lia) Hl) as (A & B). split; [exact A|].
  rewrite B, <- fw_app. f_equal. unfold blen. lia.
Qed.
Lemma lay_by_gapless g l g' off : off <= blen g -> gapless off (places l) -> lay_by g l g' ->
  laid_by g l g' /\ exists q, g' = fw g (N.to_nat off) (firstn q (data_of l)).
Proof.
  intros Hg Hl [->|(l0 & o & d & q & -> & ->)].
  - destruct (lay_gapless l g off Hg Hl) as (A & B). split; [left; exact A|]. exists (length (data_of l)). now rewrite firstn_all.
  - unfold places in Hl. rewrite flat_map_app in Hl. fold (places l0) in Hl. apply gapless_app in Hl as (H1 & H2 & _).
    destruct (lay_gapless l0 g off Hg H1) as (A & B). subst o.
    assert (L : (N.to_nat (off + blen (data_of l0)) <= length (lay g l0))%nat).
    { rewrite B. pose proof (PfMain.length_fw g (N.to_nat off) (data_of l0) ltac:(unfold blen in Hg; lia)) as (L & _). unfold blen. lia. }
    split; [right; exists l0, (off + blen (data_of l0)), d, q; split; [reflexivity|]; rewrite <- A; symmetry; now apply over_fw|].
    exists (length (data_of l0) + q)%nat. unfold data_of. rewrite flat_map_app. fold (data_of l0). cbn [flat_map]. rewrite app_nil_r, firstn_app_2, <- fw_app, B. f_equal. unfold blen. lia.
Qed.
Lemma slice_split (a n m : nat) (g : bytes) : slice a (n + m) g = slice a n g ++ slice (a + n) m g.
Proof.
  unfold slice. assert (E2 : skipn (a + n) g = skipn n (skipn a g)) by (clear m; revert g; induction a as [|a IH]; intros [|x g]; cbn [Nat.add skipn]; [reflexivity..|now rewrite skipn_nil|apply IH]).
  rewrite E2. generalize (skipn a g). clear. induction n as [|n IH]; intros [|x g]; cbn [Nat.add firstn skipn app]; [now destruct m|reflexivity|now rewrite firstn_nil|]. f_equal. apply IH.
Qed.
Lemma data_image image : forall l off, gapless off (places l) -> (forall o d, In (Puts o d) l -> slice (N.to_nat o) (length d) image = d) ->
  slice (N.to_nat off) (length (data_of l)) image = data_of l.
Proof.
  induction l as [|[id|o d] l IH]; intros off Hl HP; [reflexivity|apply IH; [exact Hl|intros; apply HP; now right]|].
  change (places (Puts o d :: l)) with ((o, blen d) :: places l) in Hl. destruct Hl as (-> & Hl). change (data_of (Puts off d :: l)) with (d ++ data_of l).
  rewrite app_length, slice_split, (HP off d) by now left. f_equal. rewrite <- (IH (off + blen d)) at 2; [|exact Hl|intros; apply HP; now right]. f_equal. unfold blen. lia.
Qed.
Lemma merged_in o d : forall l, In (Puts o d) (merged l) -> In (Puts o d) l.
Proof.
  induction l as [|[a|o1 d1] l IH]; [auto| |].
  - intros H. right. apply IH. destruct l as [|[c|o2 d2] l]; cbn [merged] in *.
    + destruct H as [H|[]]; discriminate.
    + destruct (beq a c); [exact H|]. destruct H as [H|H]; [discriminate|exact H].
    + destruct H as [H|H]; [discriminate|exact H].
  - intros [H|H]; [left; exact H|right; apply IH, H].
Qed.
Lemma diary_in o d tr : In (Puts o d) (diary tr) -> exists i, In (TPut i o d) tr.
Proof.
  unfold diary. intros H. apply merged_in in H. apply in_flat_map in H as (ev & A & B). apply in_rev in A. destruct ev; cbn in B; try contradiction; destruct B as [B|[]]; try discriminate. injection B as -> ->. eauto.
Qed.

(** The diary tells what is in the target. *)
Lemma main_laid E b argv w tino f n : sane E argv w -> good_index E argv w -> (b = true -> hash_reliable E w) ->
  e_open_rw E (cmd_target argv) = Some tino -> the_index E argv w f n -> (forall i, (i < n)%nat -> 0 < ent_size f i) ->
  exists k tr, (k <= n)%nat /\ run_trace w (snd (main E argv w)) tr /\ gapless (ent_start f k) (places (diary tr)) /\ ent_start f k <= blen (w_files w tino) /\
    (forall j, (j < k)%nat -> holds E b f j (w_files w tino)) /\
    laid_by (w_files w tino) (diary tr) (w_files (snd (main E argv w)) tino) /\
    exists q, w_files (snd (main E argv w)) tino = fw (w_files w tino) (N.to_nat (ent_start f k)) (firstn q (data_of (diary tr))).
Proof.
  intros HS HG Hb Ho Hx Hpos. destruct (main_lay E b argv w tino f n HS HG Hb Ho Hx Hpos) as (k & tr & A1 & A2 & (r & A3) & A4 & A5). exists k, tr. split; [exact A1|]. split; [exact A2|].
  assert (Hwf : well_formed f n) by (destruct Hx as (iino & p & Hi & <- & HV); replace n with (N.to_nat (N.of_nat n)) by lia; now apply (HG _ p _ Hi)).
  destruct (spots_steps f n k Hwf n ltac:(lia)) as (B1 & _). rewrite A3 in B1. unfold spots in B1. rewrite flat_map_app in B1. fold (spots (map outline (diary tr))) in B1. rewrite spots_outline in B1.
  apply gapless_begins in B1. split; [exact B1|].
  assert (Hk : ent_start f k <= blen (w_files w tino)) by (destruct k as [|k]; [cbn; lia|]; destruct (A4 k ltac:(lia)) as (X & _); exact X).
  split; [exact Hk|]. split; [exact A4|]. now apply lay_by_gapless.
Qed.

Lemma held_image E f n pieces g : describes E f n pieces -> forall k, (k <= n)%nat -> (forall j P, (j < k)%nat -> nth_error pieces j = Some P -> ent_slice f j g = P) ->
  firstn (N.to_nat (ent_start f k)) g = concat (firstn k pieces).
Proof.
  intros HD. induction k as [|k IH]; intros Hk H; [reflexivity|]. destruct (nth_error pieces k) as [P|] eqn:HP; [|apply nth_error_None in HP; destruct HD as (HL & _); lia].
  rewrite (firstn_S_nth _ _ _ HP), concat_app. cbn [concat]. rewrite app_nil_r, <- IH; [|lia|intros j Q Hj HQ; apply H; [lia|exact HQ]]. rewrite <- (H k P ltac:(lia) HP).
  destruct (piece_at E f n pieces HD k ltac:(lia)) as (P' & P1 & P2 & P3 & P4 & P5). change (ent_start f (S k)) with (ent_end f k).
  unfold ent_slice. change (firstn (N.to_nat (ent_start f k)) g) with (slice 0 (N.to_nat (ent_start f k)) g). change (firstn (N.to_nat (ent_end f k)) g) with (slice 0 (N.to_nat (ent_end f k)) g).
  rewrite <- (slice_split 0). f_equal. unfold ent_size. lia.
Qed.

Lemma frontier_made image g off d : (off <= length g)%nat -> firstn off g = firstn off image -> (off + length d <= length image)%nat -> slice off (length d) image = d ->
  frontier image g (fw g off d).
Proof.
  intros Hg Hp Hl Hd. exists (off + length d)%nat. split; [exact Hl|]. rewrite fw_eq, Hp by exact Hg. rewrite app_assoc. f_equal.
  change (firstn off image) with (slice 0 off image). rewrite <- Hd at 1. change (firstn (off + length d) image) with (slice 0 (off + length d) image). symmetry. apply (slice_split 0).
Qed.
Lemma main_frontier E argv w pieces tino : sane E argv w -> described E argv w pieces -> (forall P, In P pieces -> P <> []) -> e_open_rw E (cmd_target argv) = Some tino ->
  let w' := snd (main E argv w) in
  exists tr, run_trace w w' tr /\
    (frontier (concat pieces) (w_files w tino) (w_files w' tino) \/
     collision E pieces (fun y => (exists o D, In (TPut tino o D) tr /\ end_piece y D) \/ exists a l, end_piece y (slice a l (w_files w tino)))).
Proof.
  intros HS HD Hne Ht w'.
  assert (Setup : forall wk, started w wk -> quiet0 wk w' -> exists tr, run_trace w w' tr /\
    (frontier (concat pieces) (w_files w tino) (w_files w' tino) \/
     collision E pieces (fun y => (exists o D, In (TPut tino o D) tr /\ end_piece y D) \/ exists a l, end_piece y (slice a l (w_files w tino))))).
  { intros wk (kc & ->) Q. pose proof (quiet0_files _ _ Q) as F. destruct Q as (_ & _ & _ & _ & tr & A & _). exists tr. split; [exact A|]. left. exists 0%nat. split; [lia|]. cbn [firstn skipn app]. now rewrite F. }
  destruct (main_split E argv w HS) as [(_ & wk & A & B)|(ino & tino' & p & n & Ho & Ht' & HV)]; [eauto|].
  assert (tino' = tino) as -> by congruence.
  destruct (main_only_target E argv w) as (_ & tr' & T' & _). fold w' in T'.
  set (K := fun tr y => (exists o D, In (TPut tino o D) tr /\ end_piece y D) \/ exists a l, end_piece y (slice a l (w_files w tino))).
  destruct (described_good E argv w pieces ino p n (K tr') HD Ho HV) as [HG|HC]; [|exists tr'; split; [exact T'|now right]].
  destruct (main_any E false argv w HS HG ltac:(discriminate)) as (d & [(_ & wk & A & B)|(wk & su & w1 & HR)]); [eauto|]. fold w' in HR.
  destruct (ran_bytes _ _ _ _ _ _ _ _ _ HR) as (tr & T & P & _). pose proof (ran_ready _ _ _ _ _ _ _ _ _ HR) as R2.
  assert (su_index su = ino) as Ei by (pose proof (rd_index _ _ _ _ _ _ _ R2); congruence).
  assert (t_ino (su_target su) = tino) as Et by (pose proof (rd_target _ _ _ _ _ _ _ R2); congruence).
  pose proof (rd_valid _ _ _ _ _ _ _ R2) as HV'. rewrite Ei in HV'. pose proof (HD _ _ _ Ho HV') as HD1. rewrite Ei, Et in P.
  set (f := w_files w ino) in *. set (nn := N.to_nat (su_n su)) in *. set (image := concat pieces). set (g := w_files w tino) in *.
  exists tr. split; [exact T|].
  assert (Hx : the_index E argv w f nn) by (exists ino, (su_params su); unfold nn; rewrite N2Nat.id; auto).
  assert (Hpos : forall i, (i < nn)%nat -> 0 < ent_size f i).
  { intros i Hi. destruct (piece_at E f nn pieces HD1 i Hi) as (Q & Q1 & _ & _ & _ & ->). specialize (Hne Q (nth_error_In _ _ Q1)). destruct Q; [congruence|]. unfold blen. cbn [length]. lia. }
  destruct (main_laid E false argv w tino f nn HS HG ltac:(discriminate) Ht Hx Hpos) as (k & tr2 & A1 & A2 & A3 & A4 & A5 & _ & q & A6). fold w' in A2, A6. fold g in A4, A5, A6.
  assert (tr2 = tr) as -> by (unfold run_trace in *; apply (app_inv_tail (w_trace w)); congruence).
  assert (PI : forall i Q, nth_error pieces i = Some Q -> slice (N.to_nat (ent_start f i)) (length Q) image = Q).
  { intros i Q HQ. apply nth_error_ext. intros j. unfold slice. rewrite nth_error_firstn, nth_error_skipn. destruct (j <? length Q)%nat eqn:Ej.
    - apply (nth_image E f nn pieces HD1 i Q j HQ). apply Nat.ltb_lt, Ej.
    - symmetry. apply nth_error_None. apply Nat.ltb_ge, Ej. }
  destruct (forall_in_or _ (collision E pieces (K tr))
     (fun ev => match ev with TPut i o D => slice (N.to_nat o) (length D) image = D | _ => True end) tr) as [G|G]; [| |now right].
  { intros [] Hin; auto. destruct (P _ _ _ Hin) as (-> & j & Hj & Hoff & HL & HH).
    destruct (data_piece E _ _ pieces HD1 j _ Hj HL HH) as [(Q & Q1 & Q2)|C].
    - left. subst. now apply (PI j).
    - right. eapply collision_mono; [|exact C]. cbv beta. intros y Hy. left. eauto. }
  destruct (forall_or (collision E pieces (K tr)) (fun i => forall Q, nth_error pieces i = Some Q -> ent_slice f i g = Q) k) as [G2|G2]; [| |now right].
  { intros i Hi. destruct (A5 i Hi) as (B1 & B2). destruct (piece_at E f nn pieces HD1 i ltac:(lia)) as (Q & Q1 & Q2 & _ & _ & Q3).
    destruct (data_piece E f nn pieces HD1 i (ent_slice f i g) ltac:(lia)) as [(Q' & C1 & C2)|C].
    - unfold ent_slice, slice. rewrite firstn_length, skipn_length. unfold blen in *. lia.
    - exact B2.
    - left. congruence.
    - right. eapply collision_mono; [|exact C]. intros y Hy. right. unfold ent_slice in Hy. eauto. }
  left. pose proof (held_image E f nn pieces g HD1 k A1 (fun j Q Hj => G2 j Hj Q)) as Hp.
  assert (Hoff : N.to_nat (ent_start f k) = length (concat (firstn k pieces))) by (rewrite (start_is E f nn pieces HD1 k A1); unfold blen; lia).
  assert (Him : image = concat (firstn k pieces) ++ concat (skipn k pieces)) by (unfold image; rewrite <- concat_app, firstn_skipn; reflexivity).
  pose proof (data_image image (diary tr) (ent_start f k) A3 (fun o D HI => match diary_in o D tr HI with ex_intro _ i Hi => G _ Hi end)) as HDI.
  set (off := N.to_nat (ent_start f k)) in *. set (dd := data_of (diary tr)) in *.
  assert (Hlen : (off + length dd <= length image)%nat).
  { assert (X := f_equal (@length N) HDI). unfold slice in X. rewrite firstn_length, skipn_length in X. rewrite Him in X |- *. rewrite app_length in *. lia. }
  rewrite A6. apply frontier_made.
  - unfold blen in A4. unfold off. lia.
  - rewrite Hp, Him, Hoff. symmetry. apply firstn_exact.
  - rewrite firstn_length. lia.
  - rewrite <- HDI at 2. unfold slice. rewrite firstn_firstn, firstn_length. reflexivity.
Qed.

(** ** Several runs *)
Lemma frontier_refl image g : frontier image g g. Proof. exists 0%nat. split; [lia|reflexivity]. Qed.
Lemma frontier_nth image g g' : frontier image g g' <-> exists p, (p <= length image)%nat /\ forall i, nth_error g' i = if (i <? p)%nat then nth_error image i else nth_error g i.
Proof.
  split; intros (p & A & B); exists p; (split; [exact A|]).
  - intros i. subst g'. rewrite nth_error_app, firstn_length, Nat.min_l by exact A. destruct (i <? p)%nat eqn:Ei; [rewrite nth_error_firstn, Ei; reflexivity|].
    rewrite nth_error_skipn. f_equal. apply Nat.ltb_ge in Ei. lia.
  - apply nth_error_ext. intros i. rewrite B, nth_error_app, firstn_length, Nat.min_l by exact A. destruct (i <? p)%nat eqn:Ei; [rewrite nth_error_firstn, Ei; reflexivity|].
    rewrite nth_error_skipn. f_equal. apply Nat.ltb_ge in Ei. lia.
Qed.
Lemma frontier_trans image g1 g2 g3 : frontier image g1 g2 -> frontier image g2 g3 -> frontier image g1 g3.
Proof.
  rewrite !frontier_nth. intros (p & A & B) (q & C & D). exists (Nat.max p q). split; [lia|]. intros i. rewrite D, B.
  destruct (i <? q)%nat eqn:Eq; destruct (i <? p)%nat eqn:Ep; destruct (i <? Nat.max p q)%nat eqn:Em; try reflexivity; lia.
Qed.
Lemma attempts_frontier pieces : (forall P, In P pieces -> P <> []) -> forall l g g', attempts pieces g l g' -> frontier (concat pieces) g g' \/ exists a, In a l /\ collides pieces a.
Proof.
  intros Hne. induction l as [|a l IH]; intros g g' H; [left; cbn in H; subst; apply frontier_refl|]. destruct H as (H1 & H2 & H3 & H4 & H5).
  destruct (main_frontier _ _ _ _ _ H1 H2 Hne H3) as (tr & T & [F|C]); [|right; exists a; split; [now left|exists tr; auto]].
  destruct (IH _ _ H5) as [F2|(a' & X & Y)]; [|right; exists a'; split; [now right|exact Y]]. left. rewrite H4 in F. eapply frontier_trans; [exact F|exact F2].
Qed.

Lemma frontier_kept image g g' p : frontier image g g' -> firstn p g = firstn p image -> firstn p g' = firstn p image.
Proof.
  rewrite frontier_nth. intros (q & A & B) H. apply nth_error_ext. intros i. assert (X := f_equal (fun l => nth_error l i) H). cbv beta in X. rewrite !nth_error_firstn in *. rewrite B.
  destruct (i <? p)%nat; [|reflexivity]. destruct (i <? q)%nat; [reflexivity|exact X].
Qed.
Lemma attempts_kept pieces p : (forall P, In P pieces -> P <> []) -> forall l g g', attempts pieces g l g' -> firstn p g = firstn p (concat pieces) ->
  firstn p g' = firstn p (concat pieces) \/ exists a, In a l /\ collides pieces a.
Proof. intros Hne l g g' H Hp. destruct (attempts_frontier pieces Hne l g g' H) as [F|C]; [left; eapply frontier_kept; eauto|now right]. Qed.
Lemma main_replayed E argv w tino f n : sane E argv w -> good_index E argv w ->
  e_open_rw E (cmd_target argv) = Some tino -> the_index E argv w f n -> (forall i, (i < n)%nat -> 0 < ent_size f i) ->
  exists tr, run_trace w (snd (main E argv w)) tr /\ laid_by (w_files w tino) (diary tr) (w_files (snd (main E argv w)) tino).
Proof.
  intros HS HG Ho Hx Hpos. destruct (main_laid E false argv w tino f n HS HG ltac:(discriminate) Ho Hx Hpos) as (k & tr & _ & A & _ & _ & _ & B & _). exists tr. auto.
Qed.
