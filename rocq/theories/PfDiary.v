(** What a successful run asks for and writes. *)
From Verif Require Import Base Lib Utils Sha Chunker Caibx Index StoreLocal Target StoreHttp Chain Ui MainProg
  SpecBasic SpecEnv SpecChunker SpecStore SpecHttp SpecCaibx SpecMain SpecRun SpecOrder SpecStats SpecReport SpecSource SpecDiary SpecResume
  PfUtils PfBasic PfRead PfIO PfCaibx PfFrame PfLocal PfTarget PfChain PfMain PfMain2 PfSetup PfRun PfReadonly PfTally PfSync.
Local Open Scope N_scope.

(** ** Diaries *)
Definition acts (tr : list tev) : list act := flat_map act_of (rev tr).
Definition did (l : list act) (w w' : world) : Prop := exists tr, w_trace w' = tr ++ w_trace w /\ acts tr = l.
Lemma acts_app t2 t1 : acts (t2 ++ t1) = acts t1 ++ acts t2.
Proof. unfold acts. now rewrite rev_app_distr, flat_map_app. Qed.
Lemma did_refl w : did [] w w. Proof. exists []. auto. Qed.
Lemma did_trans a b w1 w2 w3 : did a w1 w2 -> did b w2 w3 -> did (a ++ b) w1 w3.
Proof. intros (t1 & A1 & A2) (t2 & B1 & B2). exists (t2 ++ t1). split; [now rewrite B1, A1, app_assoc|]. now rewrite acts_app, A2, B2. Qed.
Lemma did_event ev w : did (act_of ev) w (add_trace ev w).
Proof. exists [ev]. split; [reflexivity|]. cbn. apply app_nil_r. Qed.
Definition no_act (ev : tev) : Prop := act_of ev = [].
Lemma acts_none tr : Forall no_act tr -> acts tr = [].
Proof. induction 1 as [|ev tr H _ IH]; [reflexivity|]. change (ev :: tr) with ([ev] ++ tr). rewrite acts_app, IH. unfold acts. cbn. now rewrite H. Qed.
Lemma did_quiet S0 (P : tev -> Prop) w w' : (forall ev, P ev -> no_act ev) -> quiet S0 P w w' -> did [] w w'.
Proof. intros HP (_ & _ & _ & _ & tr & A & B). exists tr. split; [exact A|]. apply acts_none. eapply Forall_impl; [|exact B]. exact HP. Qed.
Lemma did_quiet0 w w' : quiet0 w w' -> did [] w w'.
Proof. apply did_quiet. intros []; unfold no_act; cbn; tauto. Qed.

(** A list of requests that is empty or ends with something written. *)
Definition closed (l : list act) : Prop := l = [] \/ exists a o d, l = a ++ [Puts o d].
Lemma merged_puts o d : forall a c, merged (a ++ Puts o d :: c) = merged (a ++ [Puts o d]) ++ merged c.
Proof.
  induction a as [|x a IH]; intros c; [reflexivity|]. cbn [app].
  destruct x as [i|o' d']; [|cbn [merged app]; now rewrite IH].
  destruct a as [|[j|o' d'] a].
  - cbn [app]. cbn [merged app]. reflexivity.
  - specialize (IH c). cbn [app] in *. cbn [merged] in *. destruct (beq i j); [exact IH|]. now rewrite IH.
  - specialize (IH c). cbn [app] in *. cbn [merged] in *. now rewrite IH.
Qed.
Lemma merged_closed l c : closed l -> merged (l ++ c) = merged l ++ merged c.
Proof. intros [->|(a & o & d & ->)]; [reflexivity|]. rewrite <- app_assoc. cbn [app]. apply merged_puts. Qed.
Lemma merged_repeat id o d : forall m, merged (repeat (Asks id) (S m) ++ [Puts o d]) = [Asks id; Puts o d].
Proof. induction m as [|m IH]; [reflexivity|]. cbn [repeat app] in *. cbn [merged]. rewrite beq_refl. exact IH. Qed.
Lemma merged_block id o d m : merged (repeat (Asks id) m ++ [Puts o d]) = (if Nat.eqb m 0 then [] else [Asks id]) ++ [Puts o d].
Proof. destruct m as [|m]; [reflexivity|]. rewrite merged_repeat. reflexivity. Qed.
Lemma closed_app l a o d : closed (l ++ a ++ [Puts o d]).
Proof. right. exists (l ++ a), o, d. apply app_assoc. Qed.

(** ** A request *)
Lemma did_chain E id : forall l i t out w,
  wp (chain_loop E i l t id out) (fun x w' => exists m, did (repeat (Asks id) m) w w' /\ (has_data (fst (fst (fst x))) = true -> m <> 0%nat)) (fun _ _ => True) w.
Proof.
  induction l as [|ss l IH]; intros i t out w; cbn [chain_loop]; [apply wp_ret; exists 0%nat; split; [apply did_refl|discriminate]|].
  destruct (negb (ss_active ss)).
  - apply wp_bind. eapply wp_mono; [apply (IH (S i) t out w)| |auto]. intros [[[r o2] l2] t2] w2 H. apply wp_ret. exact H.
  - apply wp_bind, wp_trace, wp_bind. set (w1 := add_trace _ w). assert (T1 : did [Asks id] w w1) by (apply (did_event (TQuery i id))).
    apply (wp_frame none store_ev); [apply frame_store_get; intros; exact Logic.I|]. apply wp_any; [|auto]. intros [[[r o1] s] t1] w2 Q.
    apply wp_bind, wp_trace. set (w3 := add_trace _ w2).
    assert (T3 : did [Asks id] w w3).
    { change [Asks id] with (([Asks id] ++ []) ++ []). eapply did_trans; [eapply did_trans; [exact T1|apply did_quiet0, Q]|apply (did_event (TAnswer i r))]. }
    assert (Cont : forall t out s a, wp ('(r, out, l', t) <- chain_loop E (S i) l t id out;; ret (r, out, mkSub s a :: l', t))
       (fun x w' => exists m, did (repeat (Asks id) m) w w' /\ (has_data (fst (fst (fst x))) = true -> m <> 0%nat)) (fun _ _ => True) w3).
    { intros t2 o2 s2 a2. apply wp_bind. eapply wp_mono; [apply (IH (S i) t2 o2 w3)| |auto]. intros [[[r2 o3] l3] t3] w4 (m & M1 & M2). apply wp_ret. exists (S m). split; [|discriminate].
      apply (did_trans [Asks id] _ w w3 w4 T3 M1). }
    destruct r as [k|]; [destruct (0 <? k) eqn:Ek|]; try apply Cont.
    apply wp_ret. exists 1%nat. split; [exact T3|discriminate].
Qed.

(** ** One entry *)
Section Entry.
Variables (E : env) (m : N) (tino : nat).

Lemma did_write t data len o id w : t_ino t = tino ->
  wp (target_write E t data len o id) (fun r w' => fst r = true -> let D := firstn (N.to_nat len) data in
     did [Puts o D] w w' /\ length D = N.to_nat len /\ w_files w' tino = fw (w_files w tino) (N.to_nat o) D) (fun _ _ => True) w.
Proof.
  intros Ht. unfold target_write. destruct (blen data <? len) eqn:El; [now apply wp_ub|]. apply wp_bind, wp_trace, wp_bind. rewrite Ht. set (D := firstn _ data). set (w1 := add_trace _ w).
  assert (T1 : did [Puts o D] w w1) by (apply (did_event (TPut tino o D))).
  apply (wp_frame (eq tino) (fun ev => match ev with TWrite _ _ _ => True | _ => False end)); [apply frame_pwriteall; [reflexivity|intros; exact Logic.I]|].
  assert (F : wp (pwriteall E tino D o) (fun ok w' => ok = true -> w_files w' tino = fw (w_files w1 tino) (N.to_nat o) D) (fun _ _ => True) w1).
  { unfold wp, pwriteall. destruct (pwrite_loop _ _ _ _ _ _) as [[[r f'] wr] ev'] eqn:EP. apply pwrite_loop_spec in EP as (n & L & -> & Hd & _). destruct r; auto; [|discriminate].
    intros _. cbn [w_files]. unfold upd_file. rewrite Nat.eqb_refl, Hd, firstn_all by reflexivity. reflexivity. }
  eapply wp_mono; [exact F| |auto]. intros ok w2 F2 Q2. destruct ok; cbn [negb]; [|apply wp_ret; discriminate].
  assert (T2 : did [Puts o D] w w2).
  { change [Puts o D] with ([Puts o D] ++ []). eapply did_trans; [exact T1|]. eapply did_quiet; [|exact Q2]. intros []; unfold no_act; cbn; tauto. }
  apply wp_bind. apply (wp_frame none never); [apply frame_add_chunk|]. apply wp_any; [|auto]. intros t' w3 Q3. apply wp_ret. intros _. cbv zeta.
  split; [|split].
  - change [Puts o D] with ([Puts o D] ++ []). eapply did_trans; [exact T2|]. eapply did_quiet; [|exact Q3]. intros ? [].
  - unfold D. rewrite firstn_length. unfold blen in El. lia.
  - destruct Q3 as (Q3 & _). rewrite Q3 by (intros []). apply F2. reflexivity.
Qed.
Lemma did_progress st w : wp (entry_progress E m st) (fun r w' => fst r = true /\ did [] w w' /\ w_files w' = w_files w) (fun _ _ => True) w.
Proof.
  unfold entry_progress. destruct (e_interactive E).
  - apply wp_bind, wp_trace, wp_ret. split; [reflexivity|]. split; [apply (did_event (TProgress _))|reflexivity].
  - apply wp_ret. split; [reflexivity|]. split; [apply did_refl|reflexivity].
Qed.
Lemma did_fetch o len id st w : 0 < len -> t_ino (m_target st) = tino ->
  wp (entry_fetch_write E m o len id st)
    (fun r w' => fst r = true -> exists k D, did (repeat (Asks id) k ++ [Puts o D]) w w' /\ Nat.eqb k 0 = same_last id st /\
       length D = N.to_nat len /\ w_files w' tino = fw (w_files w tino) (N.to_nat o) D)
    (fun _ _ => True) w.
Proof.
  intros Hl Ht. unfold entry_fetch_write. fold (same_last id st).
  assert (Wr : forall st1 w1 k, did (repeat (Asks id) k) w w1 -> Nat.eqb k 0 = same_last id st -> t_ino (m_target st1) = tino -> w_files w1 tino = w_files w tino ->
    wp ('(ok, t) <- target_write E (m_target st1) (m_buf st1) len o id;;
        (let st2 := m_set st1 (m_store st1) t (m_last_id st1) (m_resuming st1) (m_buf st1) in if negb ok then ret (false, st2) else entry_progress E m st2))
      (fun r w' => fst r = true -> exists k D, did (repeat (Asks id) k ++ [Puts o D]) w w' /\ Nat.eqb k 0 = same_last id st /\
       length D = N.to_nat len /\ w_files w' tino = fw (w_files w tino) (N.to_nat o) D) (fun _ _ => True) w1).
  { intros st1 w1 k T Hk T1 F1. apply wp_bind. eapply wp_mono; [apply (did_write (m_target st1) (m_buf st1) len o id w1 T1)| |auto].
    intros [ok t] w2 H. cbn [fst] in H. cbv zeta in *. destruct ok; cbn [negb]; [|apply wp_ret; discriminate]. destruct (H eq_refl) as (H1 & H2 & H3).
    eapply wp_mono; [apply did_progress| |auto]. intros r w3 (_ & P1 & P2) _. exists k, (firstn (N.to_nat len) (m_buf st1)). split; [|split; [exact Hk|split; [exact H2|rewrite P2, H3, F1; reflexivity]]].
    rewrite <- (app_nil_r (repeat _ _ ++ _)). eapply did_trans; [eapply did_trans; [exact T|exact H1]|exact P1]. }
  apply wp_bind. destruct (same_last id st) eqn:Es.
  - apply wp_ret. cbn [negb]. apply (Wr st w 0%nat); auto. apply did_refl.
  - destruct (m_store st) as [chain|] eqn:Ec; [|now apply wp_ub]. apply wp_bind.
    eapply wp_mono; [apply (wp_conj _ _ _ _ _ _ _ (did_chain E id chain 0 (m_target st) (m_buf st) w)
      (gives_wp _ _ none (fun _ => True) _ w (gives_chain E id chain 0 (m_target st) (m_buf st)) (frame_chain_loop none (fun _ => True) E ltac:(intros; exact Logic.I) ltac:(intros; exact Logic.I) ltac:(intros; exact Logic.I) ltac:(intros; exact Logic.I) ltac:(intros; exact Logic.I) chain 0%nat (m_target st) id (m_buf st))))| |auto].
    intros [[[r buf] ch] t] w1 ((k & T & L) & Q & G). cbn [fst snd] in *. destruct Q as (Q & _). destruct r as [k'|]; [destruct (k' =? len) eqn:Ek|].
    + apply N.eqb_eq in Ek. subst k'. apply wp_ret. cbn [negb]. apply (Wr _ w1 k); [exact T| |cbn; congruence|apply Q; intros []].
      apply Nat.eqb_neq, L. cbn. apply N.ltb_lt. exact Hl.
    + apply wp_ret. cbn [negb]. apply wp_ret. discriminate.
    + apply wp_ret. cbn [negb]. apply wp_ret. discriminate.
Qed.
(** target_check_chunk refuses only what the target lacks, unless a read fails. *)
Lemma check_refuses t tmp len off id w : hash_mode true w -> len <= blen tmp -> 0 < len -> error_free (w_io w) -> blen (w_files w (t_ino t)) < OFF_LIMIT ->
  wp (target_check_chunk E t tmp len off id) (fun r _ => fst (fst r) <> Some true -> off + len <= blen (w_files w (t_ino t)) -> e_H E (slice_N off len (w_files w (t_ino t))) <> id) (fun _ _ => True) w.
Proof.
  intros Hm Hl H0 He Hlim. unfold target_check_chunk. apply wp_bind, wp_pread_cost.
  - intros ev Hs Hr Ho Hd Ht. cbn [negb]. apply wp_bind. set (g := w_files w (t_ino t)) in *. rewrite firstn_overlay by (unfold blen in Hd; lia).
    assert (Q1 := quiet0_io w ev Hs). apply wp_chunk_id_why with (b := true); [exact (quiet0_mode _ _ _ Q1 Hm)| |auto].
    intros k kv r Q2 Hh Hc Hk. destruct (beq r id) eqn:Eb; cbn [negb].
    + apply wp_bind. apply wp_any; [|auto]. intros t' w2. apply wp_ret. intros X. cbn in X. congruence.
    + apply wp_ret. intros _ _ X. cbn in Hh. rewrite <- X, <- Hh, beq_refl in Eb. discriminate.
  - intros ev k Hs Hn Hln Hwhy _. cbn [negb]. apply wp_ret. intros _ Hin. destruct Hwhy as [X|[X|X]]; [contradiction|lia|lia].
  - auto.
Qed.
End Entry.

(** ** All entries *)
Definition block (f : bytes) (k : nat) (g : bytes) (i : nat) : list act :=
  (if to_fetch f k i then [Asks (ent_id f i)] else []) ++ [Puts (ent_start f i) (ent_slice f i g)].
Lemma to_do_next f k i g : (k <= i)%nat -> to_do f k (S i) g = to_do f k i g ++ block f k g i.
Proof.
  intros H. unfold to_do. replace (S i - k)%nat with (S (i - k)) by lia. rewrite seq_S, flat_map_app. replace (k + (i - k))%nat with i by lia. cbn [flat_map]. rewrite app_nil_r. reflexivity.
Qed.
Lemma to_do_same f k i g g' : (forall j, (k <= j < i)%nat -> ent_slice f j g' = ent_slice f j g) -> to_do f k i g' = to_do f k i g.
Proof.
  intros H. unfold to_do. rewrite !flat_map_concat_map. f_equal. apply map_ext_in. intros j Hj. apply in_seq in Hj. rewrite H by lia. reflexivity.
Qed.
Lemma to_do_none f k g : to_do f k k g = []. Proof. unfold to_do. now rewrite Nat.sub_diag. Qed.

Section Whole.
Variables (E : env) (b : bool) (f : bytes) (n nn tino iino : nat) (w1 : world).
(** Entry [k] was not in the target, if this can be told. *)
Definition missed (k : nat) : Prop := b = true -> error_free (w_io w1) -> ~ holds E true f k (w_files w1 tino).
Definition noted (i : nat) (st : mstate) (w2 : world) : Prop :=
  ent_start f i <= blen (w_files w2 tino) /\ suffix (w_io w2) (w_io w1) /\
  if m_resuming st then did [] w1 w2
  else exists k l, (k < i)%nat /\ did l w1 w2 /\ closed l /\ merged l = to_do f k i (w_files w2 tino) /\
    (forall j, (j < k)%nat -> holds E b f j (w_files w1 tino)) /\ missed k /\ m_skipped st = N.of_nat k.
Definition DInv (i : nat) (last : N) (st : mstate) (w2 : world) : Prop := TInv E b f nn tino iino w1 i last st w2 /\ noted i st w2.
Hypothesis (Hwf : well_formed f n) (Hpos : forall i, (i < n)%nat -> 0 < ent_size f i) (Hne : iino <> tino) (Hlim : blen (w_files w1 tino) < OFF_LIMIT).

(** Writing entry [i]. *)
Lemma noted_write i k l w w' m D : (i < n)%nat -> (k <= i)%nat -> did l w1 w -> closed l -> merged l = to_do f k i (w_files w tino) -> ent_start f i <= blen (w_files w tino) ->
  did (repeat (Asks (ent_id f i)) m ++ [Puts (ent_start f i) D]) w w' -> Nat.eqb m 0 = negb (to_fetch f k i) -> length D = N.to_nat (ent_size f i) ->
  w_files w' tino = fw (w_files w tino) (N.to_nat (ent_start f i)) D ->
  ent_start f (S i) <= blen (w_files w' tino) /\ exists l', did l' w1 w' /\ closed l' /\ merged l' = to_do f k (S i) (w_files w' tino).
Proof.
  intros Hi Hk H1 H2 H3 Hs H4 H5 H6 H7. destruct (Hwf i Hi) as (A & _). assert (L : (N.to_nat (ent_start f i) <= length (w_files w tino))%nat) by (unfold blen in Hs; lia).
  pose proof (PfMain.length_fw _ _ D L) as (L1 & _). split.
  - rewrite H7. unfold blen. change (ent_start f (S i)) with (ent_end f i). unfold ent_size in H6. lia.
  - exists (l ++ (repeat (Asks (ent_id f i)) m ++ [Puts (ent_start f i) D])). split; [eapply did_trans; eauto|]. split; [apply closed_app|].
    rewrite merged_closed by exact H2. rewrite to_do_next by exact Hk. f_equal.
    + rewrite H3. symmetry. apply to_do_same. intros j Hj. rewrite H7. unfold ent_slice. apply slice_fw_before; [exact L|].
      pose proof (ent_end_mono f n Hwf j i ltac:(lia) ltac:(lia)). destruct (Hwf j ltac:(lia)) as (B & _). unfold ent_size. lia.
    + rewrite merged_block, H5. unfold block. f_equal; [now destruct (to_fetch f k i)|]. do 2 f_equal. rewrite H7. unfold ent_slice. rewrite <- H6. symmetry. now apply slice_fw_at.
Qed.

Lemma noted_entry m i st w : (i < n)%nat -> DInv i (ent_start f i) st w ->
  wp (entry_cb E m (ent_start f i) (ent_size f i) (ent_id f i) st) (fun r w' => if fst r then DInv (S i) (ent_end f i) (snd r) w' else True) (fun _ _ => True) w.
Proof.
  intros Hi (HT & N1 & N2 & N3). pose proof (tally_entry E b f n nn tino iino w1 Hwf Hpos Hne m i st w Hi HT) as T. destruct HT as (I1 & I2 & _ & I4 & I5).
  pose proof (step_entry E tino m (ent_start f i) (ent_size f i) (ent_id f i) st I2 w) as Q.
  assert (G : wp (entry_cb E m (ent_start f i) (ent_size f i) (ent_id f i) st) (fun r w' => fst r = true -> suffix (w_io w') (w_io w1) -> noted (S i) (snd r) w') (fun _ _ => True) w).
  { unfold noted, so_far in *. unfold entry_cb. destruct (m_resuming st) eqn:Er.
    - destruct I5 as (J1 & J2 & J3 & J4 & J5 & J6 & J7). destruct (BUF_SIZE <? ent_size f i) eqn:Eb; [apply wp_ret; discriminate|].
      apply wp_bind.
      assert (C2 : wp (target_check_chunk E (m_target st) (m_buf st) (ent_size f i) (ent_start f i) (ent_id f i)) (fun r _ => fst (fst r) <> Some true -> missed i) (fun _ _ => True) w).
      { unfold missed. destruct b; [|apply wp_any; [intros; congruence|auto]].
        unfold wp. destruct (target_check_chunk E (m_target st) (m_buf st) (ent_size f i) (ent_start f i) (ent_id f i) w) as [[r| | |] w2] eqn:Ec; auto.
        intros Hr _ He (X1 & X2). 
        pose proof (check_refuses E (m_target st) (m_buf st) (ent_size f i) (ent_start f i) (ent_id f i) w J5 ltac:(lia) (Hpos i Hi) ltac:(eapply error_free_suffix; eauto) ltac:(rewrite I2, J4; exact Hlim)) as C.
        unfold wp in C. rewrite Ec in C. destruct (Hwf i Hi) as (A & _). apply C; [exact Hr|rewrite I2, J4; unfold ent_size; lia|].
        rewrite I2, J4, slice_N_slice. exact (X2 (Hpos i Hi)). }
      eapply wp_mono; [apply (wp_conj _ _ _ _ _ _ _ C2 (check_holds E b (m_target st) (m_buf st) (ent_size f i) (ent_start f i) (ent_id f i) w J5 ltac:(lia) (Hpos i Hi)))| |auto].
      intros [[r buf] t] w2 (C & Q2 & L & Ht & H). cbn [fst snd] in *. rewrite I2 in *. rewrite J4 in H.
      assert (T2 : did [] w1 w2) by (apply (did_trans [] [] w1 w w2 N3), did_quiet0, Q2).
      assert (F2 : w_files w2 tino = w_files w1 tino) by (rewrite (quiet0_files _ _ Q2); exact J4).
      assert (Fetch : r <> Some true -> wp (entry_fetch_write E m (ent_start f i) (ent_size f i) (ent_id f i) (m_set st (m_store st) t (m_last_id st) false buf))
        (fun r w' => fst r = true -> suffix (w_io w') (w_io w1) -> ent_start f (S i) <= blen (w_files w' tino) /\ suffix (w_io w') (w_io w1) /\
          if m_resuming (snd r) then did [] w1 w'
          else exists k l, (k < S i)%nat /\ did l w1 w' /\ closed l /\ merged l = to_do f k (S i) (w_files w' tino) /\
            (forall j, (j < k)%nat -> holds E b f j (w_files w1 tino)) /\ missed k /\ m_skipped (snd r) = N.of_nat k) (fun _ _ => True) w2).
      { intros Hr. set (st2 := m_set st (m_store st) t (m_last_id st) false buf).
        eapply wp_mono; [apply (wp_conj _ _ _ _ _ _ _ (did_fetch E m tino (ent_start f i) (ent_size f i) (ent_id f i) st2 w2 (Hpos i Hi) Ht)
          (tally_fetch E m nn (ent_start f i) (ent_size f i) (ent_id f i) st2 w2 (Hpos i Hi) I4))| |auto].
        intros x w3 (K0 & K) Hx Hsx. destruct (K Hx) as (_ & _ & _ & K4 & K5). cbn in K4. rewrite K4. destruct (K0 Hx) as (mm & D & D1 & D2 & D3 & D4).
        destruct (noted_write i i [] w2 w3 mm D Hi (Nat.le_refl i) T2 (or_introl eq_refl) ltac:(now rewrite to_do_none)) as (S1 & l' & S2 & S3 & S4); [now rewrite F2, <- J4|exact D1| |exact D3|exact D4|].
        - rewrite D2. unfold same_last, to_fetch, st2. cbn [m_set m_last_id]. now rewrite J2, Nat.eqb_refl.
        - split; [exact S1|]. split; [exact Hsx|]. exists i, l'. split; [lia|]. split; [exact S2|]. split; [exact S3|]. split; [exact S4|]. split; [exact J7|]. split; [now apply C|]. rewrite K5. exact J1. }
      destruct r as [[|]|]; [|apply Fetch; discriminate|apply Fetch; discriminate].
      eapply wp_mono; [apply (wp_conj _ _ _ _ _ _ _ (did_progress E m _ w2) (tally_progress E m nn _ w2))| |auto].
      intros x w3 ((_ & P1 & P2) & (_ & _ & _ & _ & _ & _ & P6 & _)) _ Hsx. cbn [m_resuming] in P6. rewrite P6. destruct (H eq_refl) as (H1 & _). destruct (Hwf i Hi) as (A & _).
      split; [rewrite P2, F2; change (ent_start f (S i)) with (ent_end f i); unfold ent_size in H1; lia|]. split; [exact Hsx|]. apply (did_trans [] [] w1 w2 w3 T2 P1).
    - destruct N3 as (k & l & M1 & M2 & M3 & M4 & M5 & M6 & M7). destruct I5 as (_ & _ & _ & J3 & _).
      eapply wp_mono; [apply (wp_conj _ _ _ _ _ _ _ (did_fetch E m tino (ent_start f i) (ent_size f i) (ent_id f i) st w (Hpos i Hi) I2)
          (tally_fetch E m nn (ent_start f i) (ent_size f i) (ent_id f i) st w (Hpos i Hi) I4))| |auto].
      intros x w3 (K0 & K) Hx Hsx. destruct (K Hx) as (_ & _ & _ & K4 & K5). rewrite K4, Er. destruct (K0 Hx) as (mm & D & D1 & D2 & D3 & D4).
      destruct (noted_write i k l w w3 mm D Hi ltac:(lia) M2 M3 M4 N1 D1) as (S1 & l' & S2 & S3 & S4); [|exact D3|exact D4|].
      + rewrite D2. unfold same_last, to_fetch. rewrite J3. replace (Nat.eqb i k) with false by (symmetry; apply Nat.eqb_neq; lia). cbn [orb]. now rewrite negb_involutive.
      + split; [exact S1|]. split; [exact Hsx|]. exists k, l'. split; [lia|]. repeat (split; [assumption|]). now rewrite K5. }
  eapply wp_mono; [apply (wp_conj _ _ _ _ _ _ _ (wp_conj _ _ _ _ _ _ _ G Q) T)| |auto]. intros [ok st'] w' ((A & B) & C). cbn [fst snd] in *. destruct ok; [|exact Logic.I].
  split; [exact C|]. apply A; [reflexivity|]. destruct B as ((_ & B & _) & _). eapply suffix_trans; eauto.
Qed.
End Whole.

(** ** The whole run *)
Lemma main_diary E b argv w w' tino f n : sane E argv w -> good_index E argv w -> (b = true -> hash_reliable E w) ->
  e_open_rw E (cmd_target argv) = Some tino -> the_index E argv w f n -> (forall i, (i < n)%nat -> 0 < ent_size f i) -> main E argv w = (Ok 0, w') ->
  exists k tr, (k <= n)%nat /\ run_trace w w' tr /\ diary tr = to_do f k n (w_files w' tino) /\ (forall j, (j < k)%nat -> holds E b f j (w_files w tino)) /\
    (b = true -> error_free (w_io w) -> (k < n)%nat -> ~ holds E true f k (w_files w tino)).
Proof.
  intros HS HG Hb Hopen (iino & p & Ho & Hf & HV) Hpos Hm. rewrite main_init in Hm. unfold bind in Hm. destruct (init E argv w) as [[r| | |] w1] eqn:Hinit; try discriminate.
  pose proof (wp_init E b argv w HS Hb) as H. unfold wp in H. rewrite Hinit in H. destruct H as (wk & Hst & Q1 & HR).
  destruct r as [su| |c]; [|discriminate|subst c; discriminate].
  pose proof (ready_files _ _ _ _ _ _ _ Hst HR) as Hfil. destruct HS as [HE Hsv Hes Hfo Hargs Hhelp Hix Hal Hd].
  destruct HR as [R1 R2 R3 R4 R5 R6 R7 (l & R8 & R9 & R10)].
  assert (t_ino (su_target su) = tino) as Et by congruence. assert (iino = su_index su) as -> by congruence. rewrite Hf in R4.
  assert (Hn : su_n su = N.of_nat n) by (destruct HV as (V1 & _); destruct R4 as (V2 & _); lia).
  assert (Hne : su_index su <> tino) by (intros Heq; apply (Hix tino); congruence).
  assert (Hlen : (64 + 40 * n <= length f)%nat) by (destruct HV as (V1 & _); unfold blen in V1; lia).
  destruct (Hfo (su_index su)) as (Hok & Hlim). rewrite Hf in Hok, Hlim.
  assert (Hwf : well_formed f n) by (rewrite <- Hf; replace n with (N.to_nat (N.of_nat n)) by lia; apply (HG _ p _ Ho); rewrite Hf; exact HV).
  assert (Hsl : suffix (w_io w1) (w_io w)) by (destruct Hst as (? & ->); apply Q1).
  assert (D0 : did [] w w1) by (destruct Hst as (? & ->); exact (did_quiet0 _ _ Q1)).
  set (nn := length (cmd_stores argv)).
  assert (Hl : length l = nn) by (unfold nn; clear - R10; induction R10; cbn; congruence).
  assert (W : wp (caibx_iterate_entries (entry_cb E (N.of_nat n)) (su_index su) (su_params su) (N.of_nat n) (initial_mstate su))
    (fun r w' => if fst r then exists last', DInv E b f nn tino (su_index su) w1 n last' (snd r) w' else True) (fun _ _ => True) w1).
  { apply (iterate_rule (entry_cb E (N.of_nat n)) (su_index su) (su_params su) f n Hok Hlen Hlim (DInv E b f nn tino (su_index su) w1) (fun _ _ => True) (fun _ _ => True)); auto.
    - intros i last a w3 HI. apply HI.
    - intros i last a w3 ev Hi HI Hsx _. pose proof HI as ((_ & _ & -> & _) & _). rewrite (not_skipped _ _ tino (su_index su)) by auto.
      rewrite (ent_len_size f n tino (su_index su)) by auto. destruct (Hwf i Hi) as (_ & B & _). rewrite N.mod_small by exact B.
      apply (noted_entry E b f n nn tino (su_index su) w1 Hwf Hpos Hne); [rewrite Hfil; apply Hfo|exact Hi|].
      destruct HI as (A1 & A2 & A3 & A4). split; [exact A1|]. split; [exact A2|]. split; [eapply suffix_trans; eauto|exact A4].
    - split.
      + split; [now rewrite Hfil|]. split; [exact Et|]. split; [reflexivity|]. split; [intros l' Hl'; cbn in Hl'; congruence|]. unfold so_far. cbn [initial_mstate m_resuming m_skipped m_last_id m_buf].
        split; [reflexivity|]. split; [reflexivity|]. split; [apply tally_refl|]. split; [reflexivity|]. split; [exact R5|]. split; [unfold blen; rewrite repeat_length; apply N2Nat.id|]. intros; lia.
      + unfold noted. cbn [initial_mstate m_resuming]. split; [cbn [ent_start]; lia|]. split; [apply suffix_refl|apply did_refl]. }
  unfold run_sync, bind in Hm. rewrite Hn in Hm. unfold wp in W. destruct (caibx_iterate_entries _ _ _ _ _ w1) as [[[ok st]| | |] w2]; try discriminate. destruct ok; cbn [negb fst snd] in *; [|discriminate].
  destruct (m_store st) as [chain|]; [|discriminate]. pose proof (frame_chain_free none never chain w2) as Fr. destruct (store_chain_free chain w2) as [[u| | |] w3]; try discriminate.
  cbn [ret] in Hm. injection Hm as <-. cbn [snd] in Fr. assert (F3 : w_files w3 tino = w_files w2 tino) by (destruct Fr as (Fr & _); apply Fr; intros []).
  assert (D3 : did [] w2 w3) by (eapply did_quiet; [|exact Fr]; intros ? []).
  destruct W as (last & (_ & _ & _ & _ & W1) & _ & _ & W2). unfold so_far in W1. rewrite Hfil in W1. rewrite F3.
  assert (Fin : forall l0, did l0 w1 w2 -> exists tr, run_trace w w3 tr /\ acts tr = l0).
  { intros l0 Hd0. pose proof (did_trans _ _ _ _ _ (did_trans _ _ _ _ _ D0 Hd0) D3) as (tr & T1 & T2). exists tr. split; [exact T1|]. rewrite T2, app_nil_r. reflexivity. }
  destruct (m_resuming st).
  - destruct W1 as (_ & _ & _ & _ & _ & _ & C). destruct (Fin _ W2) as (tr & T1 & T2). exists n, tr. split; [lia|]. split; [exact T1|]. split; [unfold diary; fold (acts tr); rewrite T2, to_do_none; reflexivity|]. split; [exact C|lia].
  - destruct W2 as (k & l0 & B1 & B2 & _ & B3 & B4 & B5 & _). destruct (Fin _ B2) as (tr & T1 & T2). exists k, tr. split; [lia|]. split; [exact T1|]. split; [unfold diary; fold (acts tr); rewrite T2; exact B3|].
    rewrite Hfil in B4. split; [exact B4|]. intros X1 X2 _. unfold missed in B5. rewrite Hfil in B5. apply B5; [exact X1|]. eapply error_free_suffix; eauto.
Qed.
(** On an empty target nothing is skipped. *)
Lemma main_diary_fresh E argv w w' tino f n : sane E argv w -> good_index E argv w ->
  e_open_rw E (cmd_target argv) = Some tino -> w_files w tino = [] -> the_index E argv w f n -> (forall i, (i < n)%nat -> 0 < ent_size f i) -> main E argv w = (Ok 0, w') ->
  exists tr, run_trace w w' tr /\ diary tr = to_do f 0 n (w_files w' tino).
Proof.
  intros HS HG Ho He Hx Hpos Hm. destruct (main_diary E false argv w w' tino f n HS HG ltac:(discriminate) Ho Hx Hpos Hm) as (k & tr & A1 & A2 & A3 & A4 & _). exists tr. split; [exact A2|].
  destruct k as [|k]; [exact A3|]. destruct (A4 0%nat ltac:(lia)) as (X & _). rewrite He in X. specialize (Hpos 0%nat ltac:(lia)). unfold ent_size in Hpos. change (blen []) with 0 in X. lia.
Qed.

(** ** Images *)
Lemma firstn_S_nth {A} (l : list A) : forall i x, nth_error l i = Some x -> firstn (S i) l = firstn i l ++ [x].
Proof. induction l as [|y l IH]; intros [|i] x H; cbn in *; try discriminate; [now injection H as ->|]. f_equal. auto. Qed.
Lemma skipn_nth_cons {A} (l : list A) : forall i x, nth_error l i = Some x -> skipn i l = x :: skipn (S i) l.
Proof. induction l as [|y l IH]; intros [|i] x H; cbn in *; try discriminate; [now injection H as ->|]. rewrite (IH i x H). reflexivity. Qed.
Lemma start_is E f n pieces : describes E f n pieces -> forall i, (i <= n)%nat -> ent_start f i = blen (concat (firstn i pieces)).
Proof.
  intros (HL & HD). induction i as [|i IH]; intros Hi; [reflexivity|]. destruct (nth_error pieces i) as [P|] eqn:HP; [|apply nth_error_None in HP; lia].
  rewrite (firstn_S_nth _ _ _ HP), concat_app. cbn [concat]. rewrite app_nil_r. destruct (HD i P HP) as (X & _). change (ent_start f (S i)) with (ent_end f i). rewrite X, IH by lia. unfold blen. rewrite app_length. lia.
Qed.
Lemma to_do_plan E f n pieces g : describes E f n pieces -> (forall i P, nth_error pieces i = Some P -> ent_slice f i g = P) ->
  forall m k i last, (k <= i)%nat -> (i + m = n)%nat -> last = (if Nat.eqb i k then None else Some (ent_id f (i - 1))) ->
  flat_map (block f k g) (seq i m) = plan E last (blen (concat (firstn i pieces))) (skipn i pieces).
Proof.
  intros HD Hs. induction m as [|m IH]; intros k i last Hk Hm ->.
  - rewrite skipn_all2 by (destruct HD as (-> & _); lia). reflexivity.
  - destruct (nth_error pieces i) as [P|] eqn:HP; [|apply nth_error_None in HP; destruct HD as (HL & _); lia].
    rewrite (skipn_nth_cons _ _ _ HP). cbn [seq flat_map plan]. rewrite (IH k (S i) (Some (ent_id f i))) by (try lia; replace (Nat.eqb (S i) k) with false by (symmetry; apply Nat.eqb_neq; lia); now rewrite Nat.sub_succ, Nat.sub_0_r).
    pose proof HD as (HL & HD'). destruct (HD' i P HP) as (_ & _ & Hid).
    rewrite (firstn_S_nth _ _ _ HP), concat_app. cbn [concat]. rewrite app_nil_r.
    replace (blen (concat (firstn i pieces) ++ P)) with (blen (concat (firstn i pieces)) + blen P) by (unfold blen; rewrite app_length; lia).
    unfold block. rewrite (Hs i P HP), (start_is E f n pieces HD i ltac:(lia)), <- Hid, <- app_assoc. cbn [app]. f_equal. unfold to_fetch. destruct (Nat.eqb i k); cbn [orb]; [reflexivity|]. now destruct (beq _ _).
Qed.

Lemma described_slice E argv w w' pieces iino tino p n : described E argv w pieces -> e_open E (cmd_index argv) = Some iino -> valid_index (w_files w iino) p n ->
  firstn (length (concat pieces)) (w_files w' tino) = concat pieces -> forall i P, nth_error pieces i = Some P -> ent_slice (w_files w iino) i (w_files w' tino) = P.
Proof.
  intros HD H1 H3 Hg i P HP. pose proof (HD _ _ _ H1 H3) as Hds. pose proof Hds as (HL & Hds'). destruct (Hds' i P HP) as (X & _). assert (Hi : (i < length pieces)%nat) by (apply nth_error_Some; congruence).
  pose proof (start_is E _ _ pieces Hds i ltac:(lia)) as S1. unfold ent_slice. rewrite S1. unfold ent_size. rewrite X, S1.
  replace (N.to_nat (blen (concat (firstn i pieces)))) with (length (concat (firstn i pieces))) by (unfold blen; lia).
  replace (N.to_nat (blen (concat (firstn i pieces)) + blen P - blen (concat (firstn i pieces)))) with (length P) by (unfold blen; lia).
  assert (Ec : concat pieces = concat (firstn i pieces) ++ P ++ concat (skipn (S i) pieces)).
  { rewrite <- (firstn_skipn i pieces) at 1. rewrite concat_app, (skipn_nth_cons _ _ _ HP). reflexivity. }
  rewrite <- (firstn_skipn (length (concat pieces)) (w_files w' tino)), Hg, Ec, <- !app_assoc. unfold slice. rewrite skipn_app, skipn_all, Nat.sub_diag. cbn [skipn app]. now rewrite firstn_app, Nat.sub_diag, firstn_all, firstn_O, app_nil_r.
Qed.
Lemma hash_reliable_dec E w : hash_reliable E w \/ ~ hash_reliable E w.
Proof.
  unfold hash_reliable. assert (D : kernel_ok (w_kev w) \/ ~ kernel_ok (w_kev w)).
  { unfold kernel_ok. destruct (Forall_dec (fun e => match e with KN _ | KIntr => True | KShort _ | KErr => False end)) with (l := w_kev w) as [H|H]; [intros []; auto|now left|now right]. }
  destruct D as [D|D]; [now left; right|]. destruct (e_getenv E (bs "CSN_KCAPI_DRIVER")); [right; intros [(X & _)|X]; [discriminate|contradiction]|].
  destruct (w_kcapi w); [right; intros [(_ & X)|X]; [discriminate|contradiction]|]. now left; left.
Qed.
Lemma main_plan E argv w w' tino pieces : sane E argv w -> described E argv w pieces -> (forall P, In P pieces -> P <> []) -> e_open_rw E (cmd_target argv) = Some tino -> main E argv w = (Ok 0, w') ->
  collision E pieces (fun y => exists a l, end_piece y (slice a l (w_files w' tino))) \/
  exists k tr, (k <= length pieces)%nat /\ run_trace w w' tr /\ diary tr = plan E None (blen (concat (firstn k pieces))) (skipn k pieces) /\
    (w_files w tino = [] -> k = 0%nat) /\
    (hash_reliable E w -> error_free (w_io w) -> (k < length pieces)%nat -> ~ begun_with (w_files w tino) (firstn (S k) pieces)).
Proof.
  intros HS HD Hne Ht Hm. destruct (success_image E argv w w' pieces HS HD Hm) as (iino & tino' & p & n & H1 & H2 & H3 & H4). assert (tino' = tino) as -> by congruence.
  set (f := w_files w iino) in *. pose proof (HD _ _ _ H1 H3) as Hds. fold f in Hds. pose proof Hds as (HL & Hds').
  assert (Hx : the_index E argv w f (length pieces)) by (exists iino, p; rewrite HL, N2Nat.id; auto).
  set (K := fun y => exists a l, end_piece y (slice a l (w_files w' tino))).
  assert (Hpos : forall i, (i < length pieces)%nat -> 0 < ent_size f i).
  { intros i Hi. destruct (nth_error pieces i) as [P|] eqn:HP; [|apply nth_error_None in HP; lia]. destruct (Hds' i P HP) as (X & _). unfold ent_size. rewrite X.
    specialize (Hne P ltac:(eapply nth_error_In; eauto)). destruct P; [congruence|]. unfold blen. cbn [length]. lia. }
  destruct (described_good E argv w pieces iino p n K HD H1 H3) as [HG|HC]; [|now left].
  destruct H4 as [H4|H4]; [|left; eapply collision_mono; [|exact H4]; intros y (i & _ & Hy); unfold K; unfold ent_slice in Hy; eauto].
  right. pose proof (described_slice E argv w w' pieces iino tino p n HD H1 H3 H4) as Hsl. fold f in Hsl.
  assert (Hplan : forall k, (k <= length pieces)%nat -> to_do f k (length pieces) (w_files w' tino) = plan E None (blen (concat (firstn k pieces))) (skipn k pieces)).
  { intros k Hk. unfold to_do. apply (to_do_plan E f (length pieces) pieces (w_files w' tino) ltac:(now rewrite HL) Hsl); [lia|lia|]. now rewrite Nat.eqb_refl. }
  assert (Hfresh : forall b k, (k <= length pieces)%nat -> (forall j, (j < k)%nat -> holds E b f j (w_files w tino)) -> w_files w tino = [] -> k = 0%nat).
  { intros b k Hk A4 He. destruct k as [|k]; [reflexivity|]. destruct (A4 0%nat ltac:(lia)) as (X & _). rewrite He in X. specialize (Hpos 0%nat ltac:(lia)). unfold ent_size in Hpos. change (blen []) with 0 in X. lia. }
  destruct (hash_reliable_dec E w) as [Hr|Hr].
  - destruct (main_diary E true argv w w' tino f (length pieces) HS HG (fun _ => Hr) Ht Hx Hpos Hm) as (k & tr & A1 & A2 & A3 & A4 & A5). exists k, tr. split; [exact A1|]. split; [exact A2|].
    split; [now rewrite A3, Hplan|]. split; [eauto|]. intros _ Hio Hk (r & Hb). apply (A5 eq_refl Hio Hk).
    destruct (nth_error pieces k) as [P|] eqn:HP; [|apply nth_error_None in HP; lia]. destruct (Hds' k P HP) as (X1 & _ & X2).
    rewrite (firstn_S_nth _ _ _ HP), concat_app in Hb. cbn [concat] in Hb. rewrite app_nil_r in Hb.
    pose proof (start_is E f _ pieces Hds k ltac:(lia)) as S1. split.
    + rewrite X1, S1, Hb. unfold blen. rewrite !app_length. lia.
    + intros _. unfold ent_size. rewrite X1, S1, X2, Hb.
      replace (N.to_nat (blen (concat (firstn k pieces)))) with (length (concat (firstn k pieces))) by (unfold blen; lia).
      replace (N.to_nat (blen (concat (firstn k pieces)) + blen P - blen (concat (firstn k pieces)))) with (length P) by (unfold blen; lia).
      unfold slice. rewrite <- app_assoc, skipn_app, skipn_all, Nat.sub_diag. cbn [skipn app]. rewrite firstn_app, Nat.sub_diag, firstn_all, firstn_O, app_nil_r. reflexivity.
  - destruct (main_diary E false argv w w' tino f (length pieces) HS HG ltac:(discriminate) Ht Hx Hpos Hm) as (k & tr & A1 & A2 & A3 & A4 & A5). exists k, tr. split; [exact A1|]. split; [exact A2|].
    split; [now rewrite A3, Hplan|]. split; [eauto|]. intros X. contradiction.
Qed.
