(** Proofs about chunks that are too big (C104). *)
From Verif Require Import Base Lib Utils Sha Chunker Caibx Index StoreLocal Target StoreHttp Chain Ui MainProg
  SpecBasic SpecEnv SpecChunker SpecStore SpecHttp SpecCaibx SpecMain SpecRun SpecOrder SpecReport SpecSource SpecBig
  PfUtils PfBasic PfRead PfIO PfCaibx PfFrame PfLocal PfTarget PfChain PfMain PfMain2 PfSetup PfRun PfReadonly PfChunker PfChunkProps.
Local Open Scope N_scope.

Definition before (bound : N) (ev : tev) : Prop := match ev with TWrite _ o x => o + blen x <= bound | _ => True end.
Definition early (bound : N) (w w' : world) : Prop := exists tr, w_trace w' = tr ++ w_trace w /\ Forall (before bound) tr.
Lemma early_refl bound w : early bound w w. Proof. exists []. split; [reflexivity|constructor]. Qed.
Lemma early_trans bound a c d : early bound a c -> early bound c d -> early bound a d.
Proof. intros (t1 & A1 & A2) (t2 & B1 & B2). exists (t2 ++ t1). split; [now rewrite B1, A1, app_assoc|]. apply Forall_app. auto. Qed.
Lemma early_quiet bound (S0 : nat -> Prop) (P : tev -> Prop) w w' : (forall ev, P ev -> before bound ev) -> quiet S0 P w w' -> early bound w w'.
Proof. intros H (_ & _ & _ & _ & tr & A & B). exists tr. split; [exact A|]. eapply Forall_impl; [|exact B]. exact H. Qed.
Lemma idle_before bound ev : ev_idle ev -> before bound ev.
Proof. intros (_ & A & _). destruct ev; cbn in *; auto. exfalso. apply A. exact Logic.I. Qed.
Lemma store_before bound ev : store_ev ev -> before bound ev. Proof. destruct ev; cbn; tauto. Qed.
Lemma chain_before bound id ev : chain_ev id ev -> before bound ev. Proof. destruct ev; cbn; tauto. Qed.

Section Big.
Variables (E : env) (f : bytes) (n tino iino i0 : nat) (w1 : world).
Hypothesis (HE : env_ok E) (Hsv : server_ok E) (Hwf : well_formed f n) (Hlen : (64 + 40 * n <= length f)%nat) (Hlim : blen f < OFF_LIMIT).
Hypothesis (Hi0 : (i0 < n)%nat) (Hbig : BUF_SIZE < ent_size f i0) (Hne : iino <> tino) (Hf : w_files w1 iino = f).
Let B := ent_start f i0.
Definition BInv (i : nat) (last : N) (st : mstate) (w : world) : Prop := MInv E false f n tino w1 i last st w /\ (i <= i0)%nat /\ early B w1 w.

Lemma entry_before i ev : (i < i0)%nat -> entry_ev E false f tino i ev -> before B ev.
Proof.
  intros Hi. destruct ev; cbn; auto. intros (_ & D & A & _ & W1 & W2 & _). cbn [fst snd] in *.
  pose proof (ent_start_mono f n Hwf (S i) i0 ltac:(lia) ltac:(lia)) as H. rewrite ent_start_S in H. destruct (Hwf i ltac:(lia)) as (C & _). unfold ent_size, blen in *. fold B in H. lia.
Qed.
(** An entry in front of the big one *)
Lemma small_entry m i st w : (i < i0)%nat -> BInv i (ent_start f i) st w ->
  wp (entry_cb E m (ent_start f i) (ent_size f i) (ent_id f i) st) (fun r w' => if fst r then BInv (S i) (ent_end f i) (snd r) w' else early B w1 w')
    (fun bd w' => bd <> BUB /\ early B w1 w') w.
Proof.
  intros Hi (HM & _ & He).
  assert (K : forall w', quiet (eq tino) ev_idle w w' \/ (m_resuming st = true -> differs E f tino i w) /\
    quiet (eq tino) (fun ev => entry_ev E false f tino i ev /\ (m_last_id st = Some (ent_id f i) -> ~ is_query ev)) w w' -> early B w1 w').
  { intros w' [Q|(_ & Q)]; (eapply early_trans; [exact He|]); (eapply early_quiet; [|exact Q]).
    - intros ev. apply idle_before.
    - intros ev (A & _). now apply (entry_before i). }
  eapply wp_mono; [apply (wp_entry_cb E false f n tino w1 HE Hsv Hwf Hlen Hlim m i st w ltac:(lia) HM)| |].
  - intros [ok st'] w' H. cbn [fst snd] in *. destruct ok; [|apply K, H]. destruct H as (H1 & H2). split; [exact H1|]. split; [lia|]. apply K. tauto.
  - intros bd w' (A & _ & C). split; [exact A|]. now apply K.
Qed.
(** The big one *)
Lemma big_entry m st w : BInv i0 (ent_start f i0) st w ->
  wp (entry_cb E m (ent_start f i0) (ent_size f i0) (ent_id f i0) st) (fun r w' => fst r = false /\ early B w1 w') (fun bd w' => bd <> BUB /\ early B w1 w') w.
Proof.
  intros ((_ & HC & HL) & _ & He). unfold entry_cb. destruct (m_resuming st).
  { replace (BUF_SIZE <? ent_size f i0) with true by lia. apply wp_ret. split; [reflexivity|exact He]. }
  unfold entry_fetch_write. apply wp_bind.
  destruct (match m_last_id st with Some l => beq l (ent_id f i0) | None => false end) eqn:Eh.
  { exfalso. destruct (m_last_id st) as [l|] eqn:El; [|discriminate]. apply beq_eq in Eh. destruct HL as [HL|(j & Hj & (_ & B2 & B3 & _))]; [discriminate|].
    assert (Eid : ent_id f j = ent_id f (S j)) by (rewrite <- Hj; congruence). destruct (Hwf j ltac:(lia)) as (_ & _ & W). specialize (W ltac:(lia) Eid). rewrite Hj in Hbig. lia. }
  destruct HC as [C1 C2 C3 C4 C5 C6 C7 C8 C9 C10 (l & C11 & C12) C13 C14]. rewrite C11. apply wp_bind. unfold store_chain_get_chunk.
  eapply wp_mono; [apply (wp_chain_loop E false HE Hsv (ent_start f i0) (ent_id f i0) (ent_id_length f n Hlen Hlim i0 Hi0) l 0 (m_target st) (m_buf st) w)| |]; auto.
  - now rewrite C8.
  - rewrite C8. apply C7.
  - intros [[[r buf] l'] t'] w2 (Q1 & (A1 & A2) & _). cbn [fst snd] in A1, A2.
    assert (He2 : early B w1 w2) by (eapply early_trans; [exact He|eapply early_quiet; [|exact Q1]; intros ev; apply chain_before]).
    assert (Eg : match r with Some k => k =? ent_size f i0 | None => false end = false).
    { destruct r as [k|]; [|reflexivity]. apply N.eqb_neq. intros ->. destruct (A2 ltac:(lia)) as (A3 & _). rewrite C13 in A3. lia. }
    rewrite Eg. apply wp_ret. cbn [negb]. apply wp_ret. split; [reflexivity|exact He2].
  - intros bd w2 (Q1 & Hb). split; [exact Hb|]. eapply early_trans; [exact He|]. eapply early_quiet; [|exact Q1]. intros ev. apply chain_before.
Qed.
Lemma wp_big p st : bytes_ok f -> MInv E false f n tino w1 0 0 st w1 ->
  wp (caibx_iterate_entries (entry_cb E (N.of_nat n)) iino p (N.of_nat n) st) (fun r w' => fst r = false /\ early B w1 w') (fun bd w' => bd <> BUB /\ early B w1 w') w1.
Proof.
  intros Hok HM.
  eapply wp_mono; [apply (iterate_rule (entry_cb E (N.of_nat n)) iino p f n Hok Hlen Hlim BInv (fun _ => early B w1) (fun bd w' => bd <> BUB /\ early B w1 w'))|..].
  - intros i last a w3 ((_ & HC & _) & _). rewrite (mi_files _ _ _ _ _ _ _ _ _ HC) by exact Hne. exact Hf.
  - intros i last a w3 ev Hi HI Hs _. assert (HI2 : BInv i last a (set_io ev w3)) by (destruct HI as (A & C & D); split; [now apply MInv_io|]; auto).
    pose proof HI as ((-> & _) & Hle & _). rewrite (not_skipped f n tino iino) by auto.
    rewrite (ent_len_size f n tino iino) by auto. destruct (Hwf i Hi) as (_ & C & _). rewrite N.mod_small by exact C.
    destruct (Nat.eq_dec i i0) as [->|Hni]; [|apply small_entry; [lia|exact HI2]].
    eapply wp_mono; [apply big_entry; exact HI2| |auto]. intros [ok st'] w' (A & D). cbn [fst] in *. rewrite A. exact D.
  - intros i last a w3 ev Hi (_ & _ & He) _ _. exact He.
  - intros i last a w3 Hi (_ & _ & He) _. split; [discriminate|exact He].
  - split; [exact HM|]. split; [lia|apply early_refl].
  - intros [ok st'] w' H. cbn [fst snd] in *. destruct ok; [|auto]. destruct H as (last & _ & H & _). lia.
  - auto.
Qed.
End Big.

Lemma big_stops E argv w f n i : sane E argv w -> good_index E argv w -> the_index E argv w f n -> (i < n)%nat -> largest < ent_size f i ->
  fst (main E argv w) <> Ok 0 /\ fst (main E argv w) <> UB /\ exists tr, run_trace w (snd (main E argv w)) tr /\ all_before (ent_start f i) tr.
Proof.
  intros HS HG (iino & p & Ho & Hf & HV) Hi Hbig. change largest with BUF_SIZE in Hbig.
  assert (W : wp (main E argv) (fun c w' => c <> 0 /\ early (ent_start f i) w w') (fun bd w' => bd <> BUB /\ early (ent_start f i) w w') w).
  { rewrite main_init. apply wp_bind. eapply wp_mono; [apply (wp_init E false argv w HS); discriminate| |].
    - intros r w1 (wk & Hst & Q & HR). assert (He : early (ent_start f i) w w1).
      { destruct Hst as (k & ->). eapply (early_quiet _ _ _ (set_kcapi k (w_kev w) w)); [|exact Q]. intros ev. apply store_before. }
      destruct r as [su| |c].
      2:{ apply wp_ret. split; [discriminate|exact He]. }
      2:{ apply wp_ret. subst c. split; [discriminate|exact He]. }
      pose proof (ready_initial E false argv w wk su w1 HS Hst HR) as HM. pose proof (ready_files _ _ _ _ _ _ _ Hst HR) as Hfil. cbv zeta in HM.
      destruct HS as [HE Hsv Hes Hfo Hargs Hhelp Hix Hal Hd]. destruct HR as [R1 R2 R3 R4 R5 R6 R7 (l & R8 & R9 & R10)].
      assert (iino = su_index su) as -> by congruence. rewrite Hf in R4, HM.
      assert (Hn : su_n su = N.of_nat n) by (destruct HV as (V1 & _); destruct R4 as (V2 & _); lia).
      assert (Hne : su_index su <> t_ino (su_target su)) by (intros Heq; apply (Hix (t_ino (su_target su))); congruence).
      assert (Hlen : (64 + 40 * n <= length f)%nat) by (destruct HV as (V1 & _); unfold blen in V1; lia).
      destruct (Hfo (su_index su)) as (Hok & Hlim). rewrite Hf in Hok, Hlim.
      assert (Hwf : well_formed f n) by (rewrite <- Hf; replace n with (N.to_nat (N.of_nat n)) by lia; apply (HG _ p _ Ho); rewrite Hf; exact HV).
      rewrite Hn, Nat2N.id in HM. unfold run_sync. rewrite Hn. apply wp_bind.
      eapply wp_mono; [apply (wp_big E f n (t_ino (su_target su)) (su_index su) i w1 HE Hsv Hwf Hlen Hlim Hi Hbig Hne); [now rewrite Hfil|exact Hok|exact HM]| |].
      + intros [ok st] w2 (A & D). cbn [fst] in A. subst ok. cbn [negb]. apply wp_ret. split; [discriminate|]. eapply early_trans; eauto.
      + intros bd w2 (A & D). split; [exact A|]. eapply early_trans; eauto.
    - intros bd w1 (Hb & wk & (k & ->) & Q). split; [exact Hb|]. eapply (early_quiet _ _ _ (set_kcapi k (w_kev w) w)); [|exact Q]. intros ev. apply store_before. }
  assert (T : forall w', early (ent_start f i) w w' -> exists tr, run_trace w w' tr /\ all_before (ent_start f i) tr).
  { intros w' (tr & A & D). exists tr. split; [exact A|]. intros ino o x Hin. rewrite Forall_forall in D. exact (D _ Hin). }
  unfold wp in W. destruct (main E argv w) as [[c| | |] w']; cbn [fst snd]; destruct W as (A & D); (split; [congruence|]; split; [congruence|now apply T]).
Qed.

Lemma cut_fits p D data P : p_max p <= largest -> In P (chunks p D data) -> 0 < blen P <= largest.
Proof.
  intros Hp Hin. pose proof (chunks_nonempty p D data) as Ne. rewrite Forall_forall in Ne. specialize (Ne P Hin).
  apply in_split in Hin as (l & r & Hin). destruct (chunks_sizes p D data l P r Hin) as (A & _). change largest with 262144 in *. destruct P; [congruence|]. unfold blen in *. cbn [length] in *. lia.
Qed.
