(** Running again on a finished target (C76). *)
From Verif Require Import Base Lib Utils Sha Chunker Caibx Index StoreLocal Target StoreHttp Chain Ui MainProg
  SpecBasic SpecEnv SpecChunker SpecStore SpecHttp SpecCaibx SpecMain SpecRun SpecMemory SpecProgress
  PfUtils PfBasic PfIO PfRead PfKeyspec PfIndex PfFrame PfLocal PfHttp PfHttp2 PfCaibx PfTarget PfChain PfMain PfMain2 PfSetup PfRun PfReadonly PfSync PfMemory PfTransfers PfProgress.
Local Open Scope N_scope.

Definition progress_ev (ev : tev) : Prop := match ev with TProgress _ => True | _ => False end.

Section Again.
Variables (E : env) (f : bytes) (n : nat) (tino iino : nat) (p : params) (w0 : world).
Hypothesis (HE : env_ok E) (Hsv : server_ok E) (Hwf : well_formed f n) (Hok : bytes_ok f) (Hlen : (64 + 40 * n <= length f)%nat) (Hlim : blen f < OFF_LIMIT).
Hypothesis (Hino : iino <> tino) (Hf0 : w_files w0 iino = f) (Hu : usual_chunks f n).
Hypothesis (Hkc : kc_clean w0) (Hef : error_free (w_io w0)) (Hal : already E f tino w0 n).

Definition AInv (i : nat) (last : N) (st : mstate) (w : world) : Prop :=
  MInv E true f n tino w0 i last st w /\ m_resuming st = true /\ quiet none progress_ev w0 w.
Lemma AInv_io i last st w ev : AInv i last st w -> suffix ev (w_io w) -> AInv i last st (set_io ev w).
Proof. intros (A & B & C) H. split; [now apply MInv_io|]. split; [exact B|]. eapply quiet_trans; [exact C|now apply quiet_io]. Qed.

Lemma again_entry m i last st w : (i < n)%nat -> AInv i last st w ->
  wp (entry_cb E m last (ent_size f i) (ent_id f i) st)
    (fun r w' => fst r = true /\ AInv (S i) (ent_end f i) (snd r) w') (fun bd w' => bd = BHalt /\ quiet none progress_ev w0 w') w.
Proof.
  intros Hi ((-> & HC & HL) & Hr & Q0).
  assert (Hd : ~ differs E f tino i w).
  { apply (already_now E true f n tino iino w0 Hwf Hlen Hlim Hino i st w Hi HC Hkc Hef). intros j Hj. apply Hal. lia. }
  destruct (Hu i Hi) as (U1 & U2).
  pose proof (wp_entry_cb E true f n tino w0 HE Hsv Hwf Hlen Hlim m i st w Hi (conj eq_refl (conj HC HL))) as W2. cbv zeta in W2.
  enough (G : wp (entry_cb E m (ent_start f i) (ent_size f i) (ent_id f i) st) (fun r w' => fst r = true /\ m_resuming (snd r) = true /\ quiet none progress_ev w w')
                 (fun bd w' => bd = BHalt /\ quiet none progress_ev w w') w).
  { unfold wp in *. destruct (entry_cb E m (ent_start f i) (ent_size f i) (ent_id f i) st w) as [[[ok st']| | |] w']; cbn [fst snd] in *.
    - destruct G as (-> & G2 & G3). split; [reflexivity|]. split; [apply W2|]. split; [exact G2|]. eapply quiet_trans; eauto.
    - destruct G as (G1 & _). discriminate.
    - destruct G as (G1 & _). discriminate.
    - destruct G as (_ & G). split; [reflexivity|]. eapply quiet_trans; eauto. }
  unfold entry_cb. rewrite Hr. replace (BUF_SIZE <? ent_size f i) with false by lia.
  pose proof (MCore_queryable E true f n tino w0 Hlen Hlim _ _ _ HC) as Hqu. destruct HE as (HH & Hq & Hb & Hz).
  apply (wp_bind). 
  assert (Fr : quiet none progress_ev w (snd (target_check_chunk E (m_target st) (m_buf st) (ent_size f i) (ent_start f i) (ent_id f i) w))) by apply frame_check_chunk.
  enough (G : wp (target_check_chunk E (m_target st) (m_buf st) (ent_size f i) (ent_start f i) (ent_id f i))
     (fun r _ => fst (fst r) = Some true) (fun bd _ => bd = BHalt) w).
  { unfold wp in G. unfold wp at 1. destruct (target_check_chunk _ _ _ _ _ _ w) as [[[[r buf] t]| | |] w']; cbn [fst snd] in *; auto.
    subst r. unfold entry_progress. destruct (e_interactive E).
    - apply (wp_bind), wp_trace, wp_ret. cbn [fst snd m_resuming]. split; [reflexivity|]. split; [reflexivity|]. eapply quiet_trans; [exact Fr|]. apply (frame_trace none progress_ev). exact Logic.I.
    - apply wp_ret. cbn [fst snd m_resuming]. auto. }
  apply wp_check_chunk with (b := true); auto.
  - apply HC.
  - rewrite (mi_buf _ _ _ _ _ _ _ _ _ HC). exact U2.
  - intros r tmp w' _ _ _ _ Hdiff. exfalso. apply Hd. intros D1 D2 D3 D4 D5. rewrite (mi_ino _ _ _ _ _ _ _ _ _ HC) in Hdiff. now apply Hdiff.
  - intros bd w' _ [(-> & _)|(-> & Hz' & _)]; [reflexivity|lia].
Qed.

Lemma again_all m st : MInv E true f n tino w0 0 0 st w0 -> m_resuming st = true ->
  wp (caibx_iterate_entries (entry_cb E m) iino p (N.of_nat n) st)
     (fun r w' => fst r = true /\ exists last', AInv n last' (snd r) w') (fun bd w' => bd = BHalt /\ quiet none progress_ev w0 w') w0.
Proof.
  intros HM Hr. unfold caibx_iterate_entries. rewrite Nat2N.id.
  eapply wp_mono; [apply (iterate_prefix_rule (entry_cb E m) iino p f n Hok Hlen Hlim AInv (fun _ _ => False) (fun bd w' => bd = BHalt /\ quiet none progress_ev w0 w')) with (i := O)|..].
  - intros i last st' w ((_ & HC & _) & _). rewrite <- Hf0. now apply HC.
  - intros i last st' w ev Hi HS Hev _. pose proof HS as ((-> & _) & _). rewrite (not_skipped f n tino iino p Hwf Hok Hlen Hlim Hino i Hi), (ent_len_size f n tino iino Hwf Hok Hlen Hlim Hino i Hi).
    destruct (Hwf i Hi) as (_ & B' & _). rewrite N.mod_small by exact B'. eapply wp_mono; [apply again_entry; [exact Hi|apply AInv_io; eauto]| |auto].
    intros r w' (-> & H). exact H.
  - intros i last st' w ev Hi ((_ & HC & _) & _) Hev Hne. apply Hne. eapply error_free_suffix; [apply (mi_io _ _ _ _ _ _ _ _ _ HC)|exact Hef].
  - intros i last st' w Hi HS _. split; [reflexivity|]. apply (AInv_io i last st' w []); [exact HS|]. exists (w_io w). now rewrite app_nil_r.
  - lia.
  - split; [exact HM|]. split; [exact Hr|]. apply quiet_refl.
  - intros [ok st'] w'. cbn [fst snd]. destruct ok; [auto|contradiction].
  - auto.
Qed.
End Again.

Definition net_ev (ev : tev) : N := match ev with TPerform _ | TSleep _ => 1 | _ => 0 end.
Lemma init_no_net E argv w : spent net_ev 0 w (snd (init E argv w)).
Proof.
  apply (init_counts net_ev ltac:(reflexivity) ltac:(reflexivity) ltac:(reflexivity) ltac:(reflexivity) ltac:(reflexivity) ltac:(reflexivity) E (delays net_ev 1 10 200000)).
  apply weigh_request. reflexivity.
Qed.
Lemma net_free tr : weight net_ev tr <= 0 -> Forall store_ev tr -> Forall (fun ev => match ev with TScan _ => True | _ => False end) tr.
Proof.
  induction tr as [|ev tr IH]; intros H HF; [constructor|]. inversion HF; subst. cbn [weight] in H. constructor; [destruct ev; cbn [net_ev] in H; try contradiction; auto; lia|].
  apply IH; [lia|assumption].
Qed.


Lemma free_not_abort l : forall w, wp (store_chain_free l) (fun _ _ => True) (fun bd _ => bd <> BAbort) w.
Proof.
  induction l as [|ss l IH]; intros w; cbn [store_chain_free]; [now apply wp_ret|]. destruct (ss_store ss) as [ls| |]; [|apply IH..].
  apply wp_bind. unfold store_local_free, index_cleanup. apply wp_bind. destruct (ix_ptr (ls_idx ls)); [apply wp_ret, wp_ret, IH..|apply wp_ub; discriminate].
Qed.
Lemma run_again E argv w iino tino p n : sane E argv w -> hash_reliable E w -> error_free (w_io w) ->
  e_open E (cmd_index argv) = Some iino -> e_open_rw E (cmd_target argv) = Some tino -> valid_index (w_files w iino) p n ->
  well_formed (w_files w iino) (N.to_nat n) -> usual_chunks (w_files w iino) (N.to_nat n) -> prefix_present E (w_files w iino) (N.to_nat n) (w_files w tino) ->
  (forall i, w_files (snd (main E argv w)) i = w_files w i) /\ (exists tr, run_trace w (snd (main E argv w)) tr /\ Forall still_ev tr) /\
  forall su w1, init E argv w = (Ok (InitOk su), w1) -> fst (main E argv w) = Ok 0 \/ fst (main E argv w) = Halt \/ fst (main E argv w) = UB.
Proof.
  intros HS Hb Hef Ho Ht HV Hwf Hu Hp. rewrite main_init. pose proof (init_no_net E argv w) as (tr0 & T0 & N0).
  pose proof (wp_init E true argv w HS ltac:(auto)) as W. unfold wp in W.
  assert (Early : forall wk w1, started w wk -> quiet0 wk w1 -> w_trace w1 = tr0 ++ w_trace w ->
    (forall i, w_files w1 i = w_files w i) /\ exists tr, run_trace w w1 tr /\ Forall still_ev tr).
  { intros wk w1 (kc & ->) Q T. split; [apply (quiet0_files _ _ Q)|]. exists tr0. split; [exact T|]. destruct Q as (_ & _ & _ & _ & tr & T' & TF). cbn [w_trace set_kcapi] in T'.
    rewrite T in T'. apply app_inv_tail in T'. subst tr. eapply Forall_impl; [|exact (net_free _ N0 TF)]. intros []; cbn; tauto. }
  unfold bind. destruct (init E argv w) as [[[su| |code]| | |] w1]; cbn [fst snd ret] in *.
  2:{ destruct W as (wk & Hs & Q & _). destruct (Early wk w1 Hs Q T0) as (A & C). split; [exact A|]. split; [exact C|]. discriminate. }
  2:{ destruct W as (wk & Hs & Q & _). destruct (Early wk w1 Hs Q T0) as (A & C). split; [exact A|]. split; [exact C|]. discriminate. }
  2-4: destruct W as (_ & wk & Hs & Q); destruct (Early wk w1 Hs Q T0) as (A & C); split; [exact A|]; split; [exact C|]; discriminate.
  destruct W as (wk & Hs & Q & HR). destruct (Early wk w1 Hs Q T0) as (A & (trE & TE & FE)).
  pose proof (ready_initial _ _ _ _ _ _ _ HS Hs HR) as HM. cbv zeta in HM.
  assert (Ei : su_index su = iino) by (pose proof (rd_index _ _ _ _ _ _ _ HR); congruence).
  assert (Et : t_ino (su_target su) = tino) by (pose proof (rd_target _ _ _ _ _ _ _ HR); congruence).
  pose proof (rd_valid _ _ _ _ _ _ _ HR) as HV'. rewrite Ei in HV'. assert (En : su_n su = n) by (eapply valid_unique; eauto).
  rewrite Ei, Et, En in HM. set (nn := N.to_nat n) in *. assert (Hn : n = N.of_nat nn) by (unfold nn; lia).
  assert (Hne : iino <> tino) by (intros ->; apply (sa_index _ _ _ HS tino Ht); exact Ho).
  assert (Hkc : kc_clean w1) by (apply (rd_mode _ _ _ _ _ _ _ HR); reflexivity).
  assert (Hio : error_free (w_io w1)).
  { destruct Hs as (kc & ->). destruct Q as (_ & Q1 & _). eapply error_free_suffix; [exact Q1|exact Hef]. }
  assert (Ha : already E (w_files w iino) tino w1 nn).
  { intros j Hj. destruct (Hp j Hj) as (B & B' & C). rewrite A. split; [exact B|]. split; [exact B'|]. destruct (sa_files _ _ _ HS tino) as (_ & L).
    destruct (Hwf j ltac:(lia)) as (W1 & _). split; [eapply N.le_lt_trans; [exact W1|eapply N.le_lt_trans; [exact B'|exact L]]|]. rewrite slice_N_slice. exact C. }
  enough (G : wp (run_sync E su) (fun c w' => c = 0 /\ quiet none progress_ev w1 w') (fun bd w' => bd <> BAbort /\ quiet none progress_ev w1 w') w1).
  { assert (Fin : forall w', quiet none progress_ev w1 w' -> (forall i, w_files w' i = w_files w i) /\ exists tr, run_trace w w' tr /\ Forall still_ev tr).
    { intros w' (Q1 & _ & _ & _ & tr & T & TF). split; [intros i; rewrite Q1 by exact (fun x => x); apply A|]. exists (tr ++ trE). split; [unfold run_trace in *; now rewrite T, TE, app_assoc|].
      apply Forall_app. split; [|exact FE]. eapply Forall_impl; [|exact TF]. intros []; cbn; tauto. }
    unfold wp in G. destruct (run_sync E su w1) as [[c| | |] w']; cbn [fst snd].
    - destruct G as (-> & G). destruct (Fin w' G) as (X & Y). split; [exact X|]. split; [exact Y|]. auto.
    - destruct G as (G & _). congruence.
    - destruct G as (_ & G). destruct (Fin w' G) as (X & Y). split; [exact X|]. split; [exact Y|]. auto.
    - destruct G as (_ & G). destruct (Fin w' G) as (X & Y). split; [exact X|]. split; [exact Y|]. auto. }
  unfold run_sync. rewrite Ei, En. apply wp_bind. rewrite Hn.
  eapply wp_mono; [apply (again_all E (w_files w iino) nn tino iino (su_params su) w1 (sa_env _ _ _ HS) (sa_server _ _ _ HS) Hwf)|..]; auto.
  - apply (sa_files _ _ _ HS).
  - eapply valid_length; eauto.
  - apply (sa_files _ _ _ HS).
  - intros [ok st] w2 (H1 & last & (_ & HC & _) & _ & H2). cbn [fst snd] in *. subst ok. cbn [negb].
    destruct (mi_chain _ _ _ _ _ _ _ _ _ HC) as (l & Hl & _). rewrite Hl.
    apply (wp_frame none progress_ev).
    { apply frame_bind; [apply frame_chain_free|intros; apply frame_ret]. }
    apply wp_bind. eapply wp_mono; [apply free_not_abort| |].
    + intros _ w3 _. apply wp_ret. intros Q23. split; [reflexivity|]. eapply quiet_trans; eauto.
    + intros bd w3 Hbd Q23. split; [exact Hbd|]. eapply quiet_trans; eauto.
  - intros bd w2 (-> & H). split; [discriminate|exact H].
Qed.

(** ** A run after a run that succeeded (C76). *)
Lemma again E argv w w' iino p n w2 : sane E argv w -> good_index E argv w -> hash_reliable E w -> main E argv w = (Ok 0, w') ->
  e_open E (cmd_index argv) = Some iino -> valid_index (w_files w iino) p n -> usual_chunks (w_files w iino) (N.to_nat n) ->
  (forall i, w_files w2 i = w_files w' i) -> sane E argv w2 -> hash_reliable E w2 -> error_free (w_io w2) ->
  (forall i, w_files (snd (main E argv w2)) i = w_files w2 i) /\ (exists tr, run_trace w2 (snd (main E argv w2)) tr /\ Forall still_ev tr) /\
  forall su w1, special_free E (cmd_target argv) (cmd_stores argv) -> init E argv w2 = (Ok (InitOk su), w1) -> fst (main E argv w2) = Ok 0 \/ fst (main E argv w2) = Halt.
Proof.
  intros HS HG Hb Hm Ho HV Hu Hf HS2 Hb2 Hef. destruct (success_authentic E argv w w' HS HG Hb Hm) as (iino' & tino & p' & n' & Ho' & Ht & HV' & Hall).
  assert (iino' = iino) by congruence. subst iino'. assert (n' = n) by (eapply valid_unique; eauto). subst n'.
  assert (Hne : iino <> tino) by (intros ->; apply (sa_index _ _ _ HS tino Ht); exact Ho).
  assert (Hi : w_files w2 iino = w_files w iino).
  { rewrite Hf. pose proof (main_only_target E argv w) as (Q & _). rewrite Hm in Q. cbn [snd] in Q. apply Q. congruence. }
  assert (HG2 : good_index E argv w2) by (intros i p2 n2 X Y; assert (i = iino) by congruence; subst i; rewrite Hi in *; now apply (HG iino p2 n2)).
  destruct (run_again E argv w2 iino tino p n) as (A & B & C); rewrite ?Hi; auto.
  - now apply (HG iino p n).
  - intros j Hj. destruct (Hall j Hj) as (X & Y). split; [apply Hu, Hj|]. rewrite Hf. split; [exact X|]. apply Y, Hu, Hj.
  - split; [exact A|]. split; [exact B|]. intros su w1 Hsp R. destruct (C su w1 R) as [X|[X|X]]; auto. exfalso. revert X. now apply no_undefined.
Qed.

(** ** A run that cannot start (C78). *)
Lemma Forall2_In_l A B (P : A -> B -> Prop) l l' a : Forall2 P l l' -> In a l -> exists b, In b l' /\ P a b.
Proof. induction 1 as [|x y l l' H F IH]; [intros []|]. intros [<-|X]; [exists y; split; [now left|exact H]|]. destruct (IH X) as (b & Y & Z). exists b. split; [now right|exact Z]. Qed.
Lemma cannot_start E argv w : sane E argv w -> unstartable E argv w ->
  (forall i, w_files (snd (main E argv w)) i = w_files w i) /\
  (exists tr, run_trace w (snd (main E argv w)) tr /\ Forall (fun ev => match ev with TScan _ => True | _ => False end) tr) /\
  (fst (main E argv w) = Ok 1 \/ fst (main E argv w) = Abort \/ fst (main E argv w) = Halt).
Proof.
  intros HS HU. rewrite main_init. pose proof (init_no_net E argv w) as (tr0 & T0 & N0).
  pose proof (wp_init E false argv w HS ltac:(discriminate)) as W. unfold wp in W.
  assert (Early : forall wk w1, started w wk -> quiet0 wk w1 -> w_trace w1 = tr0 ++ w_trace w ->
    (forall i, w_files w1 i = w_files w i) /\ exists tr, run_trace w w1 tr /\ Forall (fun ev => match ev with TScan _ => True | _ => False end) tr).
  { intros wk w1 (kc & ->) Q T. split; [apply (quiet0_files _ _ Q)|]. exists tr0. split; [exact T|]. destruct Q as (_ & _ & _ & _ & tr & T' & TF). cbn [w_trace set_kcapi] in T'.
    rewrite T in T'. apply app_inv_tail in T'. subst tr. exact (net_free _ N0 TF). }
  unfold bind. destruct (init E argv w) as [[[su| |code]| | |] w1]; cbn [fst snd ret] in *.
  - exfalso. destruct W as (wk & Hs & Q & HR). destruct HU as [X|[(ino & X & Y)|[X|(arg & path & X & Y & Z)]]].
    + rewrite (rd_index _ _ _ _ _ _ _ HR) in X. discriminate.
    + rewrite (rd_index _ _ _ _ _ _ _ HR) in X. injection X as <-. eapply Y. apply (rd_valid _ _ _ _ _ _ _ HR).
    + rewrite (rd_target _ _ _ _ _ _ _ HR) in X. discriminate.
    + destruct (rd_store _ _ _ _ _ _ _ HR) as (l & _ & _ & F). destruct (Forall2_In_l _ _ _ _ _ _ F X) as (ss & _ & M). destruct Y as (ip & Y). destruct M as (_ & M). rewrite Y in M.
      destruct (ss_store ss); [|contradiction..]. destruct M as (M & _). congruence.
  - destruct W as (wk & Hs & Q & _). destruct (Early wk w1 Hs Q T0). auto.
  - destruct W as (wk & Hs & Q & ->). destruct (Early wk w1 Hs Q T0). auto.
  - destruct W as (_ & wk & Hs & Q). destruct (Early wk w1 Hs Q T0). auto.
  - destruct W as (W & _). congruence.
  - destruct W as (_ & wk & Hs & Q). destruct (Early wk w1 Hs Q T0). auto.
Qed.
