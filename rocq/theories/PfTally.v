(** The numbers of a run add up. *)
From Verif Require Import Base Lib Utils Sha Chunker Caibx Index StoreLocal Target StoreHttp Chain Ui MainProg
  SpecBasic SpecEnv SpecChunker SpecStore SpecHttp SpecCaibx SpecMain SpecRun SpecOrder SpecStats SpecReport
  PfUtils PfBasic PfRead PfIO PfCaibx PfFrame PfLocal PfTarget PfChain PfMain PfMain2 PfSetup PfRun PfReadonly.
Local Open Scope N_scope.

(** ** Counting answers *)
Definition data_ev (ev : tev) : bool := match ev with TAnswer _ (Some k) => 0 <? k | _ => false end.
Definition answers (tr : list tev) : nat := length (filter data_ev tr).
Definition in_chain (n : nat) (ev : tev) : Prop := match ev with TAnswer i _ => (i < n)%nat | _ => True end.
(** [w'] is reached from [w]; [k] answers with data were given, all by stores of a chain of [n]. *)
Definition tally (n k : nat) (w w' : world) : Prop := exists tr, w_trace w' = tr ++ w_trace w /\ answers tr = k /\ Forall (in_chain n) tr.
Lemma tally_refl n w : tally n 0 w w. Proof. exists []. repeat split. constructor. Qed.
Lemma tally_trans n a b w1 w2 w3 : tally n a w1 w2 -> tally n b w2 w3 -> tally n (a + b) w1 w3.
Proof.
  intros (t1 & A1 & A2 & A3) (t2 & B1 & B2 & B3). exists (t2 ++ t1). split; [now rewrite B1, A1, app_assoc|]. unfold answers in *. rewrite filter_app, app_length. split; [lia|].
  apply Forall_app. auto.
Qed.
Definition no_answer (ev : tev) : Prop := match ev with TAnswer _ _ => False | _ => True end.
Lemma answers_none tr : Forall no_answer tr -> answers tr = 0%nat.
Proof. induction 1 as [|ev tr H _ IH]; [reflexivity|]. unfold answers in *. cbn [filter]. destruct ev; cbn in *; tauto. Qed.
Lemma tally_quiet n S0 (P : tev -> Prop) w w' : (forall ev, P ev -> no_answer ev) -> quiet S0 P w w' -> tally n 0 w w'.
Proof.
  intros HP (_ & _ & _ & _ & tr & A & B). exists tr. split; [exact A|]. split.
  - apply answers_none. eapply Forall_impl; [|exact B]. exact HP.
  - eapply Forall_impl; [|exact B]. intros ev H. apply HP in H. destruct ev; cbn in *; tauto.
Qed.
Lemma tally_event n ev w : in_chain n ev -> tally n (if data_ev ev then 1 else 0)%nat w (add_trace ev w).
Proof. intros H. exists [ev]. split; [reflexivity|]. split; [unfold answers; cbn; now destruct (data_ev ev)|]. constructor; auto. Qed.
Lemma tally_same n k w1 w2 w3 : w_trace w3 = w_trace w2 -> tally n k w1 w2 -> tally n k w1 w3.
Proof. intros H. unfold tally. now rewrite H. Qed.

Lemma delivered_app i a b : delivered i (a ++ b) = delivered i a + delivered i b.
Proof. unfold delivered. rewrite filter_app, app_length. lia. Qed.
Lemma all_delivered_cons n ev tr : all_delivered n (ev :: tr) = all_delivered n [ev] + all_delivered n tr.
Proof.
  unfold all_delivered. induction (seq 0 n) as [|i l IH]; cbn [fold_right]; [reflexivity|]. rewrite IH. change (ev :: tr) with ([ev] ++ tr) at 1. rewrite delivered_app. lia.
Qed.
Lemma all_delivered_one i k : forall n a, fold_right (fun j s => delivered j [TAnswer i (Some k)] + s) 0 (seq a n) = if ((a <=? i)%nat && (i <? a + n)%nat && (0 <? k))%bool then 1 else 0.
Proof.
  induction n as [|n IH]; intros a; cbn [seq fold_right].
  - replace (i <? a + 0)%nat with (negb (a <=? i)%nat) by (rewrite Nat.add_0_r; destruct (Nat.leb_spec a i), (Nat.ltb_spec i a); cbn; lia). now destruct (a <=? i)%nat.
  - rewrite IH. unfold delivered. cbn [filter]. destruct (Nat.eqb_spec a i) as [->|Hne]; cbn [andb].
    + replace (S i <=? i)%nat with false by (symmetry; apply Nat.leb_gt; lia). rewrite Nat.leb_refl. replace (i <? i + S n)%nat with true by (symmetry; apply Nat.ltb_lt; lia). cbn [andb]. now destruct (0 <? k).
    + cbn [length]. replace (S a <=? i)%nat with (a <=? i)%nat by (destruct (Nat.leb_spec a i), (Nat.leb_spec (S a) i); lia). replace (S a + n)%nat with (a + S n)%nat by lia. reflexivity.
Qed.
Lemma all_delivered_answers n tr : Forall (in_chain n) tr -> all_delivered n tr = N.of_nat (answers tr).
Proof.
  induction 1 as [|ev tr H _ IH].
  - unfold all_delivered. clear. induction (seq 0 n) as [|i l IHl]; [reflexivity|]. cbn [fold_right]. rewrite IHl. reflexivity.
  - rewrite all_delivered_cons, IH. unfold answers. cbn [filter].
    assert (Z : data_ev ev = false -> all_delivered n [ev] = 0).
    { intros Z. unfold all_delivered. induction (seq 0 n) as [|i l IHl]; [reflexivity|]. cbn [fold_right]. rewrite IHl. unfold delivered. cbn [filter].
      destruct ev as [| i' [k|]| | | | | | |]; cbn [data_ev] in Z; rewrite ?Z, ?andb_false_r; reflexivity. }
    destruct (data_ev ev) eqn:Ed; [|rewrite Z by reflexivity; reflexivity].
    destruct ev as [|i [k|]| | | | | | |]; try discriminate. unfold all_delivered. rewrite all_delivered_one. cbn [data_ev] in Ed. rewrite Ed. cbn in H. replace (i <? 0 + n)%nat with true by (symmetry; apply Nat.ltb_lt; lia). cbn [Nat.leb andb length]. lia.
Qed.

(** ** A request *)
Definition got (r : option N) : nat := if has_data r then 1 else 0.
Lemma tally_chain E id nn : forall l i t out w, (i + length l = nn)%nat ->
  wp (chain_loop E i l t id out) (fun x w' => tally nn (got (fst (fst (fst x)))) w w' /\ length (snd (fst x)) = length l) (fun _ _ => True) w.
Proof.
  induction l as [|ss l IH]; intros i t out w Hi; cbn [chain_loop]; [apply wp_ret; split; [apply tally_refl|reflexivity]|]. cbn [length] in Hi.
  assert (Cont : forall t out w1 s a k, tally nn k w w1 -> k = 0%nat -> wp ('(r, out, l', t) <- chain_loop E (S i) l t id out;; ret (r, out, mkSub s a :: l', t))
     (fun x w' => tally nn (got (fst (fst (fst x)))) w w' /\ length (snd (fst x)) = length (ss :: l)) (fun _ _ => True) w1).
  { intros t1 o1 w1 s a k T ->. apply wp_bind. eapply wp_mono; [apply (IH (S i) t1 o1 w1); lia| |auto]. intros [[[r o2] l2] t2] w2 (T2 & L2). apply wp_ret. cbn [fst snd] in *. split; [apply (tally_trans nn 0 _ w w1 w2); auto|]. cbn. now rewrite L2. }
  destruct (negb (ss_active ss)).
  - apply wp_bind. eapply wp_mono; [apply (IH (S i) t out w); lia| |auto]. intros [[[r o2] l2] t2] w2 (T2 & L2). apply wp_ret. cbn [fst snd] in *. split; [exact T2|]. cbn. now rewrite L2.
  - apply wp_bind, wp_trace, wp_bind. set (w1 := add_trace _ w). assert (T1 : tally nn 0 w w1) by (apply (tally_event nn (TQuery i id)); exact Logic.I).
    apply (wp_frame none store_ev); [apply frame_store_get; intros; exact Logic.I|]. apply wp_any; [|auto]. intros [[[r o1] s] t1] w2 Q.
    assert (T2 : tally nn 0 w w2) by (apply (tally_trans nn 0 0 w w1 w2 T1); eapply tally_quiet; [|exact Q]; intros []; cbn; auto).
    apply wp_bind, wp_trace. set (w3 := add_trace _ w2). assert (T3 : tally nn (got r) w w3).
    { replace (got r) with (0 + (if data_ev (TAnswer i r) then 1 else 0))%nat by (unfold got, has_data; cbn; destruct r as [k|]; [destruct (0 <? k)|]; reflexivity).
      eapply tally_trans; [exact T2|]. apply tally_event. cbn. lia. }
    destruct r as [k|]; [destruct (0 <? k) eqn:Ek|].
    + apply wp_ret. split; [exact T3|reflexivity].
    + eapply Cont; [exact T3|]. unfold got, has_data. now rewrite Ek.
    + eapply Cont; [exact T3|reflexivity].
Qed.

(** ** One entry *)
Section Entry.
Variables (E : env) (m : N) (nn : nat).
Definition has_chain (st : mstate) : Prop := forall l, m_store st = Some l -> length l = nn.
Definition same_last (id : bytes) (st : mstate) : bool := match m_last_id st with Some l => beq l id | None => false end.

Lemma tally_progress st w : wp (entry_progress E m st)
  (fun r w' => fst r = true /\ tally nn 0 w w' /\ w_files w' = w_files w /\ m_store (snd r) = m_store st /\ m_target (snd r) = m_target st /\ m_last_id (snd r) = m_last_id st /\ m_resuming (snd r) = m_resuming st /\ m_skipped (snd r) = m_skipped st /\
     m_buf (snd r) = m_buf st /\ (forall b, hash_mode b w -> hash_mode b w')) (fun _ _ => True) w.
Proof.
  unfold entry_progress. destruct (e_interactive E).
  - apply wp_bind, wp_trace, wp_ret. repeat (split; [first [reflexivity|apply (tally_event nn (TProgress _)); exact Logic.I]|]). auto. 
  - apply wp_ret. repeat (split; [first [reflexivity|apply tally_refl]|]). auto.
Qed.
Lemma tally_fetch o len id st w : 0 < len -> has_chain st ->
  wp (entry_fetch_write E m o len id st)
    (fun r w' => fst r = true -> tally nn (if same_last id st then 0 else 1) w w' /\ has_chain (snd r) /\ m_last_id (snd r) = Some id /\ m_resuming (snd r) = m_resuming st /\ m_skipped (snd r) = m_skipped st)
    (fun _ _ => True) w.
Proof.
  intros Hl Hc. unfold entry_fetch_write. fold (same_last id st).
  assert (Wr : forall st1 w1, tally nn (if same_last id st then 0 else 1) w w1 -> has_chain st1 -> m_last_id st1 = Some id -> m_resuming st1 = m_resuming st -> m_skipped st1 = m_skipped st ->
    wp ('(ok, t) <- target_write E (m_target st1) (m_buf st1) len o id;;
        (let st2 := m_set st1 (m_store st1) t (m_last_id st1) (m_resuming st1) (m_buf st1) in if negb ok then ret (false, st2) else entry_progress E m st2))
      (fun r w' => fst r = true -> tally nn (if same_last id st then 0 else 1) w w' /\ has_chain (snd r) /\ m_last_id (snd r) = Some id /\ m_resuming (snd r) = m_resuming st /\ m_skipped (snd r) = m_skipped st)
      (fun _ _ => True) w1).
  { intros st1 w1 T C1 C2 C3 C4. apply wp_bind. apply (wp_frame (eq (t_ino (m_target st1))) no_answer); [apply frame_target_write; [reflexivity|intros; exact Logic.I|intros; exact Logic.I]|].
    apply wp_any; [|auto]. intros [ok t] w2 Q. assert (T2 : tally nn 0 w1 w2) by (eapply tally_quiet; [|exact Q]; auto). cbv zeta.
    destruct (negb ok) eqn:Eo; [apply wp_ret; discriminate|]. eapply wp_mono; [apply tally_progress| |auto].
    intros r w3 (_ & T3 & _ & P1 & _ & P2 & P3 & P4 & _) _. cbn [m_set m_store m_last_id m_resuming m_skipped] in *. split.
    - replace (if same_last id st then 0 else 1)%nat with ((if same_last id st then 0 else 1) + 0 + 0)%nat by lia. eapply tally_trans; [eapply tally_trans; eauto|exact T3].
    - unfold has_chain in *. rewrite P1, P2, P3, P4. auto. }
  apply wp_bind. destruct (same_last id st) eqn:Es.
  - apply wp_ret. cbn [negb]. apply Wr; auto; [apply tally_refl|]. unfold same_last in Es. destruct (m_last_id st) as [l|]; [|discriminate]. apply beq_eq in Es. now subst.
  - destruct (m_store st) as [chain|] eqn:Ec; [|now apply wp_ub]. apply wp_bind.
    eapply wp_mono; [apply (tally_chain E id nn chain 0 (m_target st) (m_buf st) w); rewrite (Hc _ Ec); lia| |auto].
    intros [[[r buf] ch] t] w1 (T & L). cbn [fst snd] in *. destruct r as [k|]; [destruct (k =? len) eqn:Ek|].
    + apply N.eqb_eq in Ek. subst k. apply wp_ret. cbn [negb]. apply Wr; auto.
      * unfold got, has_data in T. replace (0 <? len) with true in T by lia. exact T.
      * intros l Hl2. cbn in Hl2. injection Hl2 as <-. rewrite L. now apply Hc.
    + apply wp_ret. cbn [negb]. apply wp_ret. discriminate.
    + apply wp_ret. cbn [negb]. apply wp_ret. discriminate.
Qed.
(** target_check_chunk accepts only what the target holds. *)
Lemma check_holds b t tmp len off id w : hash_mode b w -> len <= blen tmp -> 0 < len ->
  wp (target_check_chunk E t tmp len off id) (fun r w' => quiet0 w w' /\ length (snd (fst r)) = length tmp /\ t_ino (snd r) = t_ino t /\
     (fst (fst r) = Some true -> off + len <= blen (w_files w (t_ino t)) /\ hashes E b (slice_N off len (w_files w (t_ino t))) id)) (fun _ _ => True) w.
Proof.
  intros Hm Hl H0.
  assert (G : wp (target_check_chunk E t tmp len off id) (fun r w' => length (snd (fst r)) = length tmp /\
     (fst (fst r) = Some true -> off + len <= blen (w_files w (t_ino t)) /\ hashes E b (slice_N off len (w_files w (t_ino t))) id)) (fun _ _ => True) w).
  { unfold target_check_chunk. apply wp_bind, wp_pread_cost.
    - intros ev Hs Hr Ho Hd Ht. cbn [negb]. apply wp_bind. set (g := w_files w (t_ino t)) in *.
      assert (L : length (overlay (slice_N off len g) tmp) = length tmp) by (apply length_overlay; unfold blen in *; lia).
      rewrite firstn_overlay by (unfold blen in Hd; lia).
      assert (Q1 := quiet0_io w ev Hs). apply wp_chunk_id_why with (b := b); [exact (quiet0_mode _ _ _ Q1 Hm)| |auto].
      intros k kv r Q2 Hh Hc Hk. destruct (beq r id) eqn:Eb; cbn [negb].
      + apply beq_eq in Eb. subst r. apply wp_bind. apply wp_any; [|auto]. intros t' w2. apply wp_ret. split; [exact L|]. intros _. split; [destruct Hr; lia|exact Hh].
      + apply wp_ret. split; [exact L|discriminate].
    - intros ev k Hs Hn Hln _ _. cbn [negb]. apply wp_ret. split; [apply length_overlay; unfold blen in *; lia|discriminate].
    - auto. }
  eapply wp_mono; [apply (wp_conj _ _ _ _ _ _ _ G (gives_wp _ _ none never _ w (gives_check E t tmp len off id) (frame_check_chunk none never E t tmp len off id)))| |auto].
  intros r w' ((A & B) & (C & D)). split; [|auto]. eapply quiet_mono; [| |exact C]; [auto|intros ? []].
Qed.
End Entry.

(** ** All entries *)
Lemma n_to_fetch_first f k : n_to_fetch f k (S k) = 1%nat.
Proof. unfold n_to_fetch. replace (S k - k)%nat with 1%nat by lia. cbn. unfold to_fetch. now rewrite Nat.eqb_refl. Qed.
Lemma n_to_fetch_next f k i : (k <= i)%nat -> n_to_fetch f k (S i) = (n_to_fetch f k i + if to_fetch f k i then 1 else 0)%nat.
Proof. intros H. unfold n_to_fetch. replace (S i - k)%nat with (S (i - k)) by lia. rewrite seq_S, filter_app, app_length. replace (k + (i - k))%nat with i by lia. cbn. now destruct (to_fetch f k i). Qed.

Section Whole.
Variables (E : env) (b : bool) (f : bytes) (n nn tino iino : nat) (w1 : world).
(** How the entries before [i] were dealt with. *)
Definition so_far (i : nat) (st : mstate) (w2 : world) : Prop :=
  if m_resuming st then m_skipped st = N.of_nat i /\ m_last_id st = None /\ tally nn 0 w1 w2 /\ w_files w2 tino = w_files w1 tino /\ hash_mode b w2 /\ blen (m_buf st) = BUF_SIZE /\
    (forall j, (j < i)%nat -> holds E b f j (w_files w1 tino))
  else exists k, (k < i)%nat /\ m_skipped st = N.of_nat k /\ m_last_id st = Some (ent_id f (i - 1)) /\ tally nn (n_to_fetch f k i) w1 w2 /\ (forall j, (j < k)%nat -> holds E b f j (w_files w1 tino)).
Definition TInv (i : nat) (last : N) (st : mstate) (w2 : world) : Prop :=
  w_files w2 iino = f /\ t_ino (m_target st) = tino /\ last = ent_start f i /\ has_chain nn st /\ so_far i st w2.
Hypothesis (Hwf : well_formed f n) (Hpos : forall i, (i < n)%nat -> 0 < ent_size f i) (Hne : iino <> tino).

Lemma tally_entry m i st w : (i < n)%nat -> TInv i (ent_start f i) st w ->
  wp (entry_cb E m (ent_start f i) (ent_size f i) (ent_id f i) st) (fun r w' => if fst r then TInv (S i) (ent_end f i) (snd r) w' else True) (fun _ _ => True) w.
Proof.
  intros Hi (I1 & I2 & _ & I4 & I5).
  pose proof (step_entry E tino m (ent_start f i) (ent_size f i) (ent_id f i) st I2 w) as Q.
  assert (G : wp (entry_cb E m (ent_start f i) (ent_size f i) (ent_id f i) st) (fun r w' => fst r = true -> has_chain nn (snd r) /\ so_far (S i) (snd r) w') (fun _ _ => True) w).
  { unfold so_far in *. replace (S i - 1)%nat with i by lia. unfold entry_cb. destruct (m_resuming st) eqn:Er.
    - destruct I5 as (J1 & J2 & J3 & J4 & J5 & J6 & J7). destruct (BUF_SIZE <? ent_size f i) eqn:Eb; [apply wp_ret; discriminate|].
      apply wp_bind. eapply wp_mono; [apply (check_holds E b); [exact J5|lia|now apply Hpos]| |auto].
      intros [[r buf] t] w2 (Q2 & L & T & H). cbn [fst snd] in *. rewrite I2 in *. rewrite J4 in H.
      assert (T2 : tally nn 0 w1 w2) by (apply (tally_trans nn 0 0 w1 w w2 J3); eapply tally_quiet; [|exact Q2]; intros []; cbn; tauto).
      assert (F2 : w_files w2 tino = w_files w1 tino) by (rewrite (quiet0_files _ _ Q2); exact J4).
      assert (Fetch : wp (entry_fetch_write E m (ent_start f i) (ent_size f i) (ent_id f i) (m_set st (m_store st) t (m_last_id st) false buf))
        (fun r w' => fst r = true -> has_chain nn (snd r) /\
          if m_resuming (snd r) then m_skipped (snd r) = N.of_nat (S i) /\ m_last_id (snd r) = None /\ tally nn 0 w1 w' /\ w_files w' tino = w_files w1 tino /\ hash_mode b w' /\ blen (m_buf (snd r)) = BUF_SIZE /\
            (forall j, (j < S i)%nat -> holds E b f j (w_files w1 tino))
          else exists k, (k < S i)%nat /\ m_skipped (snd r) = N.of_nat k /\ m_last_id (snd r) = Some (ent_id f i) /\ tally nn (n_to_fetch f k (S i)) w1 w' /\ (forall j, (j < k)%nat -> holds E b f j (w_files w1 tino))) (fun _ _ => True) w2).
      { eapply wp_mono; [apply (tally_fetch E m nn); [now apply Hpos|exact I4]| |auto]. intros x w3 K Hx. destruct (K Hx) as (K1 & K2 & K3 & K4 & K5). split; [exact K2|]. cbn in K4. rewrite K4.
        exists i. split; [lia|]. split; [rewrite K5; exact J1|]. split; [exact K3|]. split; [|exact J7].
        rewrite n_to_fetch_first. unfold same_last in K1. cbn [m_set m_last_id] in K1. rewrite J2 in K1. apply (tally_trans nn 0 1 w1 w2 w3 T2 K1). }
      destruct r as [[|]|]; auto.
      eapply wp_mono; [apply (tally_progress E m nn)| |auto]. intros x w3 (_ & P1 & P2 & P3 & P4 & P5 & P6 & P7 & P8 & P9) _. cbn [m_store m_target m_last_id m_resuming m_buf m_skipped] in *. rewrite P6.
      split; [intros l Hl; rewrite P3 in Hl; now apply I4|]. split; [rewrite P7, J1; lia|]. split; [now rewrite P5|].
      split; [apply (tally_trans nn 0 0 w1 w2 w3 T2 P1)|]. split; [now rewrite P2|]. split; [apply P9, (quiet0_mode _ _ _ Q2 J5)|]. split; [rewrite P8; unfold blen in *; now rewrite L|].
      intros j Hj. destruct (Nat.eq_dec j i) as [->|Hji]; [|apply J7; lia]. destruct (H eq_refl) as (H1 & H2). pose proof (Hwf i Hi) as (A & _). unfold ent_size in *.
      split; [lia|]. intros _. rewrite <- slice_N_slice. exact H2.
    - destruct I5 as (k & J1 & J2 & J3 & J4 & J5). eapply wp_mono; [apply (tally_fetch E m nn); [now apply Hpos|exact I4]| |auto].
      intros x w3 K Hx. destruct (K Hx) as (K1 & K2 & K3 & K4 & K5). split; [exact K2|]. rewrite K4, Er. exists k. split; [lia|]. split; [congruence|]. split; [exact K3|]. split; [|exact J5].
      rewrite n_to_fetch_next by lia. replace (to_fetch f k i) with (negb (same_last (ent_id f i) st)); [|unfold same_last, to_fetch; rewrite J3; replace (Nat.eqb i k) with false by (symmetry; apply Nat.eqb_neq; lia); reflexivity].
      destruct (same_last (ent_id f i) st); cbn [negb]; eapply tally_trans; eauto. }
  eapply wp_mono; [apply (wp_conj _ _ _ _ _ _ _ G Q)| |auto]. intros [ok st'] w' (A & (B & C)). cbn [fst snd] in *. destruct ok; [|exact Logic.I].
  destruct (A eq_refl) as (A1 & A2). split; [destruct B as (B & _); rewrite B by congruence; exact I1|]. split; [exact C|]. split; [reflexivity|]. auto.
Qed.
End Whole.

Lemma TInv_io E b f nn tino iino w1 i last st w ev : TInv E b f nn tino iino w1 i last st w -> TInv E b f nn tino iino w1 i last st (set_io ev w).
Proof. intros H. exact H. Qed.

Lemma summary_run E b argv w su w1 st w2 : sane E argv w -> good_index E argv w -> (b = true -> hash_reliable E w) ->
  (forall i, (i < N.to_nat (su_n su))%nat -> 0 < ent_size (w_files w (su_index su)) i) ->
  init E argv w = (Ok (InitOk su), w1) ->
  caibx_iterate_entries (entry_cb E (su_n su)) (su_index su) (su_params su) (su_n su) (initial_mstate su) w1 = (Ok (true, st), w2) ->
  let f := w_files w (su_index su) in let n := N.to_nat (su_n su) in
  exists k tr, (k <= n)%nat /\ m_skipped st = N.of_nat k /\ (forall j, (j < k)%nat -> holds E b f j (w_files w (t_ino (su_target su)))) /\
    w_trace w2 = tr ++ w_trace w1 /\ all_delivered (length (cmd_stores argv)) tr = N.of_nat (n_to_fetch f k n).
Proof.
  intros HS HG Hb Hpos Hinit Hrun f n. pose proof (wp_init E b argv w HS Hb) as H. unfold wp in H. rewrite Hinit in H. destruct H as (wk & Hst & _ & HR).
  pose proof (ready_files _ _ _ _ _ _ _ Hst HR) as Hfil. destruct HS as [HE Hsv Hes Hf Hargs Hhelp Hix Hal Hd].
  destruct HR as [R1 R2 R3 R4 R5 R6 R7 (l & R8 & R9 & R10)]. set (tino := t_ino (su_target su)) in *.
  assert (Hn : su_n su = N.of_nat n) by (unfold n; lia).
  assert (Hne : su_index su <> tino) by (intros Heq; apply (Hix tino R3); rewrite R2; congruence).
  assert (Hlen : (64 + 40 * n <= length f)%nat) by (eapply valid_length; eauto). destruct (Hf (su_index su)) as (Hok & Hlim). fold f in Hok, Hlim.
  assert (Hwf : well_formed f n) by (eapply HG; eauto).
  set (nn := length (cmd_stores argv)).
  assert (Hl : length l = nn) by (unfold nn; clear - R10; induction R10; cbn; congruence).
  assert (W : wp (caibx_iterate_entries (entry_cb E (N.of_nat n)) (su_index su) (su_params su) (N.of_nat n) (initial_mstate su))
    (fun r w' => if fst r then exists last', TInv E b f nn tino (su_index su) w1 n last' (snd r) w' else True) (fun _ _ => True) w1).
  { apply (iterate_rule (entry_cb E (N.of_nat n)) (su_index su) (su_params su) f n Hok Hlen Hlim (TInv E b f nn tino (su_index su) w1) (fun _ _ => True) (fun _ _ => True)); auto.
    - intros i last a w3 HI. apply HI.
    - intros i last a w3 ev Hi HI _ _. pose proof HI as (_ & _ & -> & _). rewrite (not_skipped _ _ tino (su_index su)) by auto.
      rewrite (ent_len_size f n tino (su_index su)) by auto. destruct (Hwf i Hi) as (_ & B & _). rewrite N.mod_small by exact B. apply (tally_entry E b f n); auto.
    - split; [apply Hfil|]. split; [reflexivity|]. split; [reflexivity|]. split; [intros l' Hl'; cbn in Hl'; congruence|]. unfold so_far. cbn [initial_mstate m_resuming m_skipped m_last_id m_buf].
      split; [reflexivity|]. split; [reflexivity|]. split; [apply tally_refl|]. split; [reflexivity|]. split; [exact R5|]. split; [unfold blen; rewrite repeat_length; apply N2Nat.id|]. intros; lia. }
  rewrite Hn in Hrun. unfold wp in W. rewrite Hrun in W. cbn [fst snd] in W. destruct W as (last & _ & _ & _ & _ & W). unfold so_far in W. rewrite Hfil in W.
  destruct (m_resuming st).
  - destruct W as (A & _ & (tr & B1 & B2 & B3) & _ & _ & _ & C). exists n, tr. split; [lia|]. split; [exact A|]. split; [exact C|]. split; [exact B1|]. rewrite all_delivered_answers, B2 by exact B3.
    unfold n_to_fetch. now rewrite Nat.sub_diag.
  - destruct W as (k & A & B & _ & (tr & C1 & C2 & C3) & D). exists k, tr. split; [lia|]. split; [exact B|]. split; [exact D|]. split; [exact C1|]. rewrite all_delivered_answers, C2 by exact C3. reflexivity.
Qed.
