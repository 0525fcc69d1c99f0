(** The progress display (C50). *)
From Verif Require Import Base Lib SpecBasic SpecEnv Utils PfUtils PfFrame PfLocal PfChain PfMain PfMain2 PfIO PfRead SpecCaibx PfCaibx SpecMain SpecRun PfSetup PfReadonly PfRun Target Chain Caibx Ui MainProg SpecPatch.
From Coq Require Import Sorting.Sorted.
Ltac Zify.zify_post_hook ::= Z.div_mod_to_equations.
Local Open Scope N_scope.

Definition pct (n : N) (i : nat) : N := 100 * N.of_nat i / n.
Lemma main_percent_pct h n : 0 < n -> n <= 42949672 -> h <= n -> main_percent h n = pct n (N.to_nat h).
Proof.
  intros H0 Hn Hh. unfold main_percent, pct. change M32 with 4294967296. rewrite N2Nat.id, (N.mod_small (100 * h)) by lia.
  apply N.mod_small. apply N.le_lt_trans with 100; [|lia]. apply N.div_le_upper_bound; lia.
Qed.
Lemma pct_sorted n k : forall a, StronglySorted N.le (map (pct n) (seq a k)).
Proof.
  induction k as [|k IH]; intros a; cbn [seq map]; [constructor|]. constructor; [apply IH|]. apply Forall_forall. intros p Hp. apply in_map_iff in Hp as (i & <- & Hi). apply in_seq in Hi.
  unfold pct. destruct (N.eq_dec n 0) as [->|Hn]; [assert (Z : forall a, a / 0 = 0) by (intros []; reflexivity); now rewrite !Z|]. apply N.div_le_mono; [exact Hn|]. lia.
Qed.
Lemma pct_display n k : 0 < n -> (k <= N.to_nat n)%nat -> good_display (N.to_nat n) (map (pct n) (seq 1 k)).
Proof.
  intros Hn Hk. split; [now rewrite map_length, seq_length|]. split.
  - apply Forall_forall. intros p Hp. apply in_map_iff in Hp as (i & <- & Hi). apply in_seq in Hi. unfold pct. apply N.div_le_upper_bound; lia.
  - split; [apply pct_sorted|]. intros i p Hi.
    assert (Hlt : (i < k)%nat) by (rewrite <- (seq_length k 1), <- (map_length (pct n)); apply nth_error_Some; congruence).
    rewrite (map_nth_error (pct n) i (seq 1 k) (d := S i)) in Hi.
    2:{ rewrite (nth_error_nth' _ O) by (now rewrite seq_length). rewrite seq_nth by exact Hlt. reflexivity. }
    injection Hi as <-. unfold pct. split.
    + intros H. assert (100 * n <= 100 * N.of_nat (S i)); [|lia]. replace (100 * n) with (n * (100 * N.of_nat (S i) / n)) by (rewrite H; lia). apply N.mul_div_le. lia.
    + intros H. replace (N.of_nat (S i)) with n by lia. apply N.div_mul. lia.
Qed.

Lemma progress_bar_spec p : p < 256 -> bar_of p (progress_bar p).
Proof.
  intros Hp. unfold progress_bar. set (tip := p * 60 / 100). exists (Nat.min 60 (N.to_nat tip)). split; [|split; [lia|split]].
  - change PROGRESS_BAR_LEN with 60%nat. apply nth_error_ext. intros i. rewrite nth_error_app, repeat_length.
    destruct (Nat.lt_ge_cases i 60) as [Hi|Hi].
    + rewrite (map_nth_error _ i (seq 0 60) (d := i)) by (rewrite (nth_error_nth' _ O) by (now rewrite seq_length); now rewrite seq_nth).
      destruct (N.ltb_spec (N.of_nat i) tip) as [H|H].
      * destruct (Nat.ltb_spec i (Nat.min 60 (N.to_nat tip))); [|lia]. rewrite nth_error_repeat. destruct (Nat.ltb_spec i (Nat.min 60 (N.to_nat tip))); [reflexivity|lia].
      * destruct (Nat.ltb_spec i (Nat.min 60 (N.to_nat tip))); [lia|]. rewrite nth_error_repeat. destruct (Nat.ltb_spec (i - Nat.min 60 (N.to_nat tip)) (60 - Nat.min 60 (N.to_nat tip))); [reflexivity|lia].
    + destruct (Nat.ltb_spec i (Nat.min 60 (N.to_nat tip))); [lia|]. rewrite !(proj2 (nth_error_None _ _)); [reflexivity|rewrite repeat_length; lia|rewrite map_length, seq_length; lia].
  - intros H. unfold tip. rewrite Nat.min_r by lia. rewrite N2Nat.id. lia.
  - intros H. unfold tip. lia.
Qed.

(** ** The percentages of a run *)
Lemma shown_app t1 t2 : shown (t1 ++ t2) = shown t2 ++ shown t1.
Proof. unfold shown. now rewrite rev_app_distr, flat_map_app. Qed.
Definition silent (ev : tev) : Prop := match ev with TProgress _ => False | _ => True end.
Lemma shown_silent tr : Forall silent tr -> shown tr = [].
Proof.
  induction 1 as [|ev tr H _ IH]; [reflexivity|]. change (ev :: tr) with ([ev] ++ tr). rewrite shown_app, IH. destruct ev; try reflexivity; destruct H.
Qed.

Section Shown.
Variables (E : env) (n : N) (tino : nat).
Notation qs := (quiet (eq tino) silent).
(** From [w] to [w'] exactly the percentages [l] were shown and only the target was changed. *)
Definition shows (l : list N) (w w' : world) : Prop :=
  (forall j, j <> tino -> w_files w' j = w_files w j) /\ exists tr, w_trace w' = tr ++ w_trace w /\ shown tr = l.
Lemma shows_quiet w w' : qs w w' -> shows [] w w'.
Proof. intros (A & _ & _ & _ & tr & B & C). split; [intros j Hj; apply A; congruence|]. exists tr. split; [exact B|now apply shown_silent]. Qed.
Lemma shows_trans l1 l2 w1 w2 w3 : shows l1 w1 w2 -> shows l2 w2 w3 -> shows (l1 ++ l2) w1 w3.
Proof.
  intros (A & t1 & A1 & A2) (B & t2 & B1 & B2). split; [intros j Hj; rewrite B, A; auto|]. exists (t2 ++ t1). split; [now rewrite B1, A1, app_assoc|]. rewrite shown_app. congruence.
Qed.
Definition next (st : mstate) : N := (m_handled st + 1) mod M32.
(** One entry: its percentage is shown if it was handled (and somebody is watching). *)
Definition step1 (st : mstate) (r : bool * mstate) (w w' : world) : Prop :=
  t_ino (m_target (snd r)) = tino /\
  if (fst r && e_interactive E)%bool then m_handled (snd r) = next st /\ shows [main_percent (next st) n] w w' else m_handled (snd r) = m_handled st /\ shows [] w w'.
Definition disp (st : mstate) (m : M (bool * mstate)) : Prop := forall w, wp m (fun r w' => step1 st r w w') (fun _ w' => shows [] w w') w.
Lemma disp_false st st' : t_ino (m_target st') = tino -> m_handled st' = m_handled st -> disp st (ret (false, st')).
Proof. intros A B w. apply wp_ret. split; [exact A|]. cbn [fst snd andb]. split; [exact B|]. apply shows_quiet, quiet_refl. Qed.
Lemma disp_bind A st (m : M A) (k : A -> M (bool * mstate)) (K : A -> Prop) : frame (eq tino) silent m -> gives K m -> (forall a, K a -> disp st (k a)) -> disp st (bind m k).
Proof.
  intros F G Hk w. apply wp_bind. eapply wp_mono; [apply (gives_wp _ K _ _ m w G F)| |]; cbv beta.
  - intros a w1 (Q & Ha). apply shows_quiet in Q. eapply wp_mono; [apply Hk, Ha| |]; cbv beta.
    + intros r w2 (H1 & H2). split; [exact H1|]. destruct (fst r && e_interactive E)%bool; (split; [apply H2|]; change (?x :: ?l) with ([] ++ x :: l); try change (@nil N) with (@nil N ++ []); eapply shows_trans; [exact Q|apply H2]).
    + intros bd w2 H. apply (shows_trans [] [] w w1 w2 Q H).
  - intros bd w1 Q. now apply shows_quiet.
Qed.
Lemma disp_progress st st0 : t_ino (m_target st) = tino -> m_handled st = m_handled st0 -> disp st0 (entry_progress E n st).
Proof.
  intros H1 H2 w. unfold entry_progress. destruct (e_interactive E) eqn:Ei.
  - cbv zeta. apply wp_bind, wp_trace, wp_ret. split; [exact H1|]. rewrite Ei. cbn [fst snd andb m_handled]. rewrite H2. split; [reflexivity|].
    split; [auto|]. exists [TProgress (main_percent (next st0) n)]. split; reflexivity.
  - apply wp_ret. split; [exact H1|]. rewrite Ei, andb_false_r. cbn [snd]. split; [exact H2|]. apply shows_quiet, quiet_refl.
Qed.
Lemma disp_fetch o l id st st0 : t_ino (m_target st) = tino -> m_handled st = m_handled st0 -> disp st0 (entry_fetch_write E n o l id st).
Proof.
  intros H1 H2. unfold entry_fetch_write.
  assert (Wr : forall st1, t_ino (m_target st1) = tino -> m_handled st1 = m_handled st0 -> disp st0 ('(ok, t) <- target_write E (m_target st1) (m_buf st1) l o id;;
    (let st2 := m_set st1 (m_store st1) t (m_last_id st1) (m_resuming st1) (m_buf st1) in if negb ok then ret (false, st2) else entry_progress E n st2))).
  { intros st1 A B. eapply disp_bind; [apply frame_target_write; [symmetry; exact A|intros; exact Logic.I|intros; exact Logic.I]|apply gives_write|].
    intros [ok t] Ht. cbn [snd] in Ht. cbv zeta. destruct (negb ok); [apply disp_false|apply disp_progress]; cbn; congruence. }
  intros w. apply wp_bind. destruct (match m_last_id st with Some _ => _ | None => false end).
  - apply wp_ret. cbn [negb]. now apply Wr.
  - destruct (m_store st) as [chain|]; [|apply wp_ub; apply shows_quiet, quiet_refl]. apply wp_bind.
    eapply wp_mono; [apply (gives_wp _ _ (eq tino) silent _ w (gives_chain E id chain 0 (m_target st) (m_buf st)))| |]; cbv beta.
    + apply frame_chain_loop; intros; exact Logic.I.
    + intros [[[r buf] ch] t] w1 (Q & Ht). cbn [snd] in Ht. apply shows_quiet in Q.
      assert (Go : forall m, disp st0 m -> wp m (fun r w' => step1 st0 r w w') (fun _ w' => shows [] w w') w1).
      { intros m Hm. eapply wp_mono; [apply Hm| |]; cbv beta.
        - intros x w2 (G1 & G2). split; [exact G1|]. destruct (fst x && e_interactive E)%bool; (split; [apply G2|]); [apply (shows_trans [] _ w w1 w2 Q)|apply (shows_trans [] [] w w1 w2 Q)]; apply G2.
        - intros bd w2 G. apply (shows_trans [] [] w w1 w2 Q G). }
      destruct (match r with Some _ => _ | None => false end); apply wp_ret; cbn [negb]; apply Go; [apply Wr|apply disp_false]; cbn; congruence.
    + intros bd w1 Q. now apply shows_quiet.
Qed.
Lemma disp_entry o l id st : t_ino (m_target st) = tino -> disp st (entry_cb E n o l id st).
Proof.
  intros H. unfold entry_cb. destruct (m_resuming st); [|now apply disp_fetch]. destruct (_ <? _); [now apply disp_false|].
  eapply disp_bind; [apply frame_check_chunk|apply gives_check|]. intros [[r buf] t] Ht. cbn [snd] in Ht.
  destruct r as [[|]|]; [apply disp_progress|apply disp_fetch|apply disp_fetch]; cbn; congruence.
Qed.
End Shown.

Definition EInv (E : env) (f : bytes) (n : nat) (tino iino : nat) (w1 : world) (i : nat) (last : N) (st : mstate) (w2 : world) : Prop :=
  w_files w2 iino = f /\ t_ino (m_target st) = tino /\
  exists k, (k <= i)%nat /\ m_handled st = N.of_nat k /\ shows tino (map (pct (N.of_nat n)) (seq 1 k)) w1 w2 /\
    (e_interactive E = true -> well_formed f n -> k = i) /\ (well_formed f n -> last = ent_start f i) /\ (e_interactive E = false -> k = O).
Definition EStop (E : env) (n : nat) (tino : nat) (w1 w2 : world) : Prop :=
  exists k, (k <= n)%nat /\ shows tino (map (pct (N.of_nat n)) (seq 1 k)) w1 w2 /\ (e_interactive E = false -> k = O).
Lemma EInv_stop E f n tino iino w1 i last st w2 : (i <= n)%nat -> EInv E f n tino iino w1 i last st w2 -> EStop E n tino w1 w2.
Proof. intros Hi (_ & _ & k & A & _ & B & _ & _ & C). exists k. split; [lia|auto]. Qed.
Lemma shows_same tino l w1 w2 w3 : w_files w3 = w_files w2 -> w_trace w3 = w_trace w2 -> shows tino l w1 w2 -> shows tino l w1 w3.
Proof. intros A B (C & D). unfold shows. now rewrite A, B. Qed.

Lemma wp_run_shown E argv w wk su w1 : sane E argv w -> su_n su <= 42949672 -> started w wk -> ready E false argv w wk su w1 ->
  wp (run_sync E su) (fun c w2 => EStop E (N.to_nat (su_n su)) (t_ino (su_target su)) w1 w2 /\
        (c = 0 -> e_interactive E = true -> well_formed (w_files w (su_index su)) (N.to_nat (su_n su)) -> shows (t_ino (su_target su)) (map (pct (su_n su)) (seq 1 (N.to_nat (su_n su)))) w1 w2))
     (fun _ w2 => EStop E (N.to_nat (su_n su)) (t_ino (su_target su)) w1 w2) w1.
Proof.
  intros HS Hmax Hst HR. pose proof (ready_files _ _ _ _ _ _ _ Hst HR) as Hfil. destruct HS as [HE Hsv Hes Hf Hargs Hhelp Hix Hal Hd].
  destruct HR as [R1 R2 R3 R4 R5 R6 R7 (l & R8 & R9 & R10)].
  set (f := w_files w (su_index su)) in *. set (n := N.to_nat (su_n su)) in *. set (tino := t_ino (su_target su)) in *.
  assert (Hn : su_n su = N.of_nat n) by (unfold n; lia).
  assert (Hne : su_index su <> tino) by (intros Heq; apply (Hix tino R3); rewrite R2; congruence).
  assert (Hlen : (64 + 40 * n <= length f)%nat) by (eapply valid_length; eauto). destruct (Hf (su_index su)) as (Hok & Hlim). fold f in Hok, Hlim.
  unfold run_sync, caibx_iterate_entries. apply wp_bind. fold n. rewrite Hn at 1.
  change 0 with (N.of_nat 0) at 1. rewrite Hn.
  assert (QS : forall l w2 w3, quiet none never w2 w3 -> shows tino l w1 w2 -> shows tino l w1 w3).
  { intros l0 w2 w3 Q. apply quiet_never in Q as (Q1 & Q2). intros (S1 & S2). split; [intros j Hj; rewrite Q1; auto|]. now rewrite Q2. }
  eapply wp_mono; [apply (iterate_prefix_rule (entry_cb E (N.of_nat n)) (su_index su) (su_params su) f n Hok Hlen Hlim
     (EInv E f n tino (su_index su) w1) (fun _ w2 => EStop E n tino w1 w2) (fun _ w2 => EStop E n tino w1 w2))|..].
  - intros i last st w2 HI. apply HI.
  - intros i last st w2 ev Hi (I1 & I2 & k & I3 & I4 & I5 & I6 & I7 & I8) Hs _.
    assert (Sh : shows tino (map (pct (N.of_nat n)) (seq 1 k)) w1 (set_io ev w2)) by (eapply shows_same; [| |exact I5]; reflexivity).
    destruct (skipped (su_params su) f n last i) eqn:Esk.
    + split; [exact I1|]. split; [exact I2|]. exists k. split; [lia|]. split; [exact I4|]. split; [exact Sh|].
      assert (No : well_formed f n -> False). { intros Hw. rewrite (I7 Hw) in Esk. rewrite (not_skipped _ _ tino (su_index su)) in Esk by auto. discriminate. }
      split; [intros _ Hw; destruct (No Hw)|]. split; [intros Hw; destruct (No Hw)|exact I8].
    + eapply wp_mono; [apply (disp_entry E (N.of_nat n) tino); exact I2| |]; cbv beta.
      * intros [ok st'] w3 (D1 & D2). cbn [fst snd] in *. assert (Fi : shows tino [] (set_io ev w2) w3 \/ exists p, shows tino [p] (set_io ev w2) w3) by (destruct ok, (e_interactive E); cbn [andb] in D2; [right; eexists| left | left | left]; apply D2).
        assert (Fx : w_files w3 (su_index su) = f). { transitivity (w_files w2 (su_index su)); [|exact I1]. destruct Fi as [(F & _)|(x & F & _)]; rewrite F by exact Hne; reflexivity. }
        destruct ok; cbn [andb] in D2.
        2:{ exists k. split; [lia|]. split; [|exact I8]. rewrite <- (app_nil_r (map _ _)). eapply shows_trans; [exact Sh|apply D2]. }
        destruct (e_interactive E) eqn:Ei.
        -- destruct D2 as (D2 & D3). unfold next in *. assert (Hk1 : (m_handled st + 1) mod M32 = N.of_nat (S k)). { rewrite I4. change M32 with 4294967296. rewrite N.mod_small by lia. lia. }
           rewrite Hk1 in *. split; [exact Fx|]. split; [exact D1|]. exists (S k). split; [lia|]. split; [exact D2|]. split.
           { replace (map (pct (N.of_nat n)) (seq 1 (S k))) with (map (pct (N.of_nat n)) (seq 1 k) ++ [main_percent (N.of_nat (S k)) (N.of_nat n)]).
             - eapply shows_trans; eauto.
             - rewrite seq_S, map_app. cbn [map]. rewrite main_percent_pct by lia. now rewrite Nat2N.id. }
           split; [intros _ Hw; now rewrite (I6 eq_refl Hw)|]. split; [intros _; reflexivity|congruence].
        -- destruct D2 as (D2 & D3). split; [exact Fx|]. split; [exact D1|]. exists k. split; [lia|]. split; [congruence|]. split.
           { rewrite <- (app_nil_r (map _ _)). eapply shows_trans; eauto. }
           split; [congruence|]. split; [intros _; reflexivity|intros _; now apply I8].
      * intros bd w3 D. exists k. split; [lia|]. split; [|exact I8]. rewrite <- (app_nil_r (map _ _)). eapply shows_trans; eauto.
  - intros i last st w2 ev Hi HI Hs _. destruct (EInv_stop _ _ _ _ _ _ _ _ _ _ (Nat.lt_le_incl _ _ Hi) HI) as (k & A & B & C). exists k. split; [exact A|]. split; [|exact C]. eapply shows_same; [| |exact B]; reflexivity.
  - intros i last st w2 Hi HI _. destruct (EInv_stop _ _ _ _ _ _ _ _ _ _ (Nat.lt_le_incl _ _ Hi) HI) as (k & A & B & C). exists k. split; [exact A|]. split; [|exact C]. eapply shows_same; [| |exact B]; reflexivity.
  - lia.
  - split; [apply Hfil|]. split; [reflexivity|]. exists O. split; [lia|]. split; [reflexivity|]. split; [apply shows_quiet, quiet_refl|]. auto.
  - intros [ok st] w2 H. cbn [fst snd] in H. destruct ok; cbn [negb]; [|apply wp_ret; split; [exact H|discriminate]].
    destruct H as (last & HI). pose proof (EInv_stop _ _ _ _ _ _ _ _ _ _ (Nat.le_refl n) HI) as (k0 & S1 & S2 & S3). rewrite Nat.add_0_l in HI. destruct HI as (_ & _ & k & I3 & I4 & I5 & I6 & I7 & I8).
    destruct (m_store st) as [ch|]; [|apply wp_ub; exists k0; auto]. apply (wp_frame none never); [apply frame_bind; [apply frame_chain_free|intros; apply frame_ret]|].
    apply wp_bind. apply wp_any; [|intros bd w3 Q; exists k0; split; [exact S1|]; split; [eapply QS; eauto|exact S3]]. intros _ w3. apply wp_ret. intros Q.
    split; [exists k0; split; [exact S1|]; split; [eapply QS; eauto|exact S3]|]. intros _ Hint Hw. rewrite <- (I6 Hint Hw) at 2. eapply QS; eauto.
  - auto.
Qed.

Lemma display_run E argv w ino p n : sane E argv w -> e_open E (cmd_index argv) = Some ino -> valid_index (w_files w ino) p n -> n <= 42949672 ->
  exists tr, run_trace w (snd (main E argv w)) tr /\ good_display (N.to_nat n) (shown tr) /\ (e_interactive E = false -> shown tr = []) /\
    (fst (main E argv w) = Ok 0 -> e_interactive E = true -> good_index E argv w -> length (shown tr) = N.to_nat n).
Proof.
  intros HS Hi Hv Hn. pose proof (wp_init E false argv w HS ltac:(discriminate)) as H. rewrite main_init. unfold bind, wp in *.
  assert (Q0 : forall wk w1, started w wk -> quiet0 wk w1 -> exists tr, run_trace w w1 tr /\ shown tr = []).
  { intros wk w1 (kc & ->) (_ & _ & _ & _ & tr & Q4 & Q5). exists tr. split; [exact Q4|]. apply shown_silent. eapply Forall_impl; [|exact Q5]. intros [] X; cbn in *; tauto. }
  assert (G0 : good_display (N.to_nat n) []). { split; [cbn; lia|]. split; [constructor|]. split; [constructor|]. intros [|i] x X; discriminate. }
  assert (QN : forall (o : outcome N) w1, o <> Ok 0 -> (exists wk, started w wk /\ quiet0 wk w1) -> exists tr, run_trace w w1 tr /\ good_display (N.to_nat n) (shown tr) /\ (e_interactive E = false -> shown tr = []) /\
    (o = Ok 0 -> e_interactive E = true -> good_index E argv w -> length (shown tr) = N.to_nat n)).
  { intros o w1 Ho (wk & A & B). destruct (Q0 _ _ A B) as (tr & C & D). exists tr. rewrite D. split; [exact C|]. split; [exact G0|]. split; [auto|contradiction]. }
  destruct (init E argv w) as [[[su| |c]| | |] w1].
  - destruct H as (wk & A & B & C). destruct (Q0 _ _ A B) as (tr & D1 & D2).
    assert (Ei : su_index su = ino) by (destruct C as [_ R2 _ _ _ _ _ _]; congruence).
    assert (En : su_n su = n). { destruct C as [_ _ _ (V & _) _ _ _ _]. rewrite Ei in V. destruct Hv as (V2 & _). lia. }
    pose proof (wp_run_shown E argv w wk su w1 HS ltac:(lia) A C) as W. rewrite En, Ei in W.
    assert (Fin : forall w2, EStop E (N.to_nat n) (t_ino (su_target su)) w1 w2 -> exists tr2, run_trace w w2 tr2 /\ good_display (N.to_nat n) (shown tr2) /\ (e_interactive E = false -> shown tr2 = [])).
    { intros w2 (k & K1 & (_ & tr2 & K2 & K3) & K4). exists (tr2 ++ tr). unfold run_trace in *. split; [now rewrite K2, D1, app_assoc|]. rewrite shown_app, D2, K3, app_nil_l, N2Nat.id. split.
      - destruct (N.eq_dec n 0) as [->|Hnz]; [replace k with O by (cbn in K1; lia); exact G0|]. apply pct_display; lia.
      - intros X. rewrite (K4 X). reflexivity. }
    unfold wp in W. destruct (run_sync E su w1) as [[c| | |] w2]; cbn [fst snd].
    + destruct W as (W1 & W2). destruct (Fin _ W1) as (tr2 & T1 & T2 & T3). exists tr2. split; [exact T1|]. split; [exact T2|]. split; [exact T3|].
      intros Hc Hint Hg. injection Hc as ->. destruct (W2 eq_refl Hint (Hg _ _ _ Hi Hv)) as (_ & tr3 & U1 & U2).
      assert (tr2 = tr3 ++ tr) as ->. { unfold run_trace in *. rewrite U1, D1, app_assoc in T1. apply app_inv_tail in T1. congruence. }
      rewrite shown_app, D2, U2. cbn [app]. now rewrite map_length, seq_length.
    + destruct (Fin _ W) as (tr2 & T1 & T2 & T3). exists tr2. split; [exact T1|]. split; [exact T2|]. split; [exact T3|discriminate].
    + destruct (Fin _ W) as (tr2 & T1 & T2 & T3). exists tr2. split; [exact T1|]. split; [exact T2|]. split; [exact T3|discriminate].
    + destruct (Fin _ W) as (tr2 & T1 & T2 & T3). exists tr2. split; [exact T1|]. split; [exact T2|]. split; [exact T3|discriminate].
  - apply (QN (Ok 1)); [discriminate|]. destruct H as (wk & A & B & _). eauto.
  - apply (QN (Ok c)); [destruct H as (wk & A & B & ->); discriminate|]. destruct H as (wk & A & B & _). eauto.
  - apply (QN Abort); [discriminate|]. destruct H as (_ & H). exact H.
  - apply (QN UB); [discriminate|]. destruct H as (_ & H). exact H.
  - apply (QN Halt); [discriminate|]. destruct H as (_ & H). exact H.
Qed.

(** ** patchdd *)
Lemma patchdd_percent_small off size : 0 < size -> off <= size -> size <= 184467440737095516 -> patchdd_percent off size = 100 * off / size.
Proof.
  intros H0 Ho Hs. unfold patchdd_percent. rewrite (N.mod_small (100 * off)) by lia. apply N.mod_small. apply N.le_lt_trans with 100; [|lia]. apply N.div_le_upper_bound; lia.
Qed.
