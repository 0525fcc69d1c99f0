(** Whole runs of csn and casync. *)
From Coq Require Import Sorting.Permutation.
From Verif Require Import Base Lib Utils Sha Chunker Caibx Index StoreLocal Target StoreHttp Chain Ui MainProg
  SpecBasic SpecEnv SpecChunker SpecStore SpecHttp SpecCaibx SpecMain SpecRun
  PfUtils PfBasic PfIO PfRead PfKeyspec PfIndex PfFrame PfLocal PfHttp PfHttp2 PfCaibx PfTarget PfChain PfMain PfMain2 PfSetup.
Local Open Scope N_scope.

Definition never (ev : tev) : Prop := False.
Lemma quiet_never w w' : quiet none never w w' -> (forall i, w_files w' i = w_files w i) /\ w_trace w' = w_trace w.
Proof.
  intros (A & _ & _ & _ & (tr & B & C)). split; [intros i; apply A; exact (fun x => x)|].
  destruct tr; [exact B|]. inversion C; contradiction.
Qed.

Lemma wp_any A (m : M A) (Q : A -> world -> Prop) (R : bad -> world -> Prop) w : (forall a w', Q a w') -> (forall bd w', R bd w') -> wp m Q R w.
Proof. intros H1 H2. unfold wp. destruct (m w) as [[a| | |] w']; auto. Qed.

Lemma ready_initial E b argv w wk su w1 : sane E argv w -> started w wk -> ready E b argv w wk su w1 ->
  let f := w_files w (su_index su) in let n := N.to_nat (su_n su) in
  MInv E b f n (t_ino (su_target su)) w1 0 0 (initial_mstate su) w1.
Proof.
  intros HS Hk HR f n. destruct HR as [R1 R2 R3 R4 R5 R6 R7 (l & R8 & R9 & R10)]. unfold initial_mstate.
  assert (Hbuf : blen (repeat 0 (N.to_nat BUF_SIZE)) = BUF_SIZE) by (unfold blen; rewrite repeat_length; apply N2Nat.id).
  split; [reflexivity|]. split; [|now left]. constructor; cbn [m_target m_store m_buf]; auto using suffix_refl, incl_refl.
  - lia.
  - split; [cbn; lia|]. split; [reflexivity|]. intros j Hj. lia.
  - intros Hq. destruct (R6 Hq) as (A & B & _). split; [exact A|]. intros e He. unfold entries in He. rewrite B in He. destruct He.
  - intros Hq. destruct (R6 Hq) as (A & B & _). unfold n_entries. rewrite B. cbn. lia.
  - rewrite R8. exists l. auto.
  - apply prov_start.
Qed.

Section Run.
Variables (E : env) (b : bool) (argv : list bytes) (w : world).
Hypothesis (HS : sane E argv w) (HG : good_index E argv w).

(** How far a run got: the stop [w'] of a run whose entries are processed from [w1] on. *)
Record ran (wk : world) (su : setup) (w1 w' : world) (done : bool) : Prop := mkRan {
  ran_started : started w wk;
  ran_ready : ready E b argv w wk su w1;
  ran_stop : SStop E b (w_files w (su_index su)) (N.to_nat (su_n su)) (t_ino (su_target su)) w1 w';
  ran_done : done = true -> 
     held E b (w_files w (su_index su)) (w_files w (t_ino (su_target su))) (N.to_nat (su_n su)) (w_files w' (t_ino (su_target su))) }.

Lemma ready_files wk su w1 : started w wk -> ready E b argv w wk su w1 -> forall i, w_files w1 i = w_files w i.
Proof. intros (k & ->) R i. apply (quiet0_files _ _ (rd_quiet _ _ _ _ _ _ _ R)). Qed.

Lemma SStop_quiet f n tino w1 w2 w3 : quiet none never w2 w3 -> SStop E b f n tino w1 w2 -> SStop E b f n tino w1 w3.
Proof.
  intros Q ((A & A') & B & segs & C). pose proof (prov_quiet _ _ _ _ _ Q A') as A2. apply quiet_never in Q as (Q1 & Q2). split; [split; [now rewrite Q1|exact A2]|]. split; [intros k Hk; rewrite Q1; auto|].
  exists segs. unfold segmented in *. now rewrite Q2.
Qed.

Lemma valid_length f p n : valid_index f p n -> (64 + 40 * N.to_nat n <= length f)%nat.
Proof. intros (V & _). unfold blen in V. lia. Qed.

Lemma wp_run_sync wk su w1 : started w wk -> ready E b argv w wk su w1 ->
  wp (run_sync E su) (fun code w' => (code = 0 \/ code = 1) /\ ran wk su w1 w' (code =? 0)) 
     (fun bd w' => exists d, ran wk su w1 w' d /\ (bd = BUB -> d = true)) w1.
Proof.
  intros Hk HR. pose proof (ready_files _ _ _ Hk HR) as Hfil. pose proof (ready_initial _ _ _ _ _ _ _ HS Hk HR) as HM.
  cbv zeta in HM. destruct HS as [HE Hsv Hes Hf Hargs Hhelp Hix Hal Hd]. pose proof HR as HR0.
  destruct HR as [R1 R2 R3 R4 R5 R6 R7 R8].
  set (f := w_files w (su_index su)) in *. set (n := N.to_nat (su_n su)) in *. set (tino := t_ino (su_target su)) in *.
  assert (Hn : su_n su = N.of_nat n) by (unfold n; lia).
  unfold run_sync. rewrite Hn at 1. apply wp_bind. rewrite Hn.
  eapply wp_mono; [apply (sync_all E b f n tino (su_index su) (su_params su) w1 HE Hsv (HG _ _ _ R2 R4))|..].
  - apply Hf.
  - eapply valid_length; eauto.
  - apply Hf.
  - intros Heq. apply (Hix tino R3). rewrite R2. congruence.
  - apply Hfil.
  - exact HM.
  - reflexivity.
  - intros [ok st] w2 H. cbn [fst snd] in H. destruct ok; cbn [negb].
    2:{ apply wp_ret. split; [now right|]. constructor; auto. discriminate. }
    destruct H as (last & HI). pose proof HI as ((_ & HC & _) & _).
    assert (HStop : SStop E b f n tino w1 w2) by (eapply (SInv_stop E b f n tino w1); eauto).
    assert (Hheld : held E b f (w_files w tino) n (w_files w2 tino)) by (rewrite <- Hfil; apply HC).
    destruct (mi_chain _ _ _ _ _ _ _ _ _ HC) as (l & Hl & _). rewrite Hl.
    apply (wp_frame none never).
    { apply frame_bind; [apply frame_chain_free|intros; apply frame_ret]. }
    assert (Fin : forall w3 d, quiet none never w2 w3 -> ran wk su w1 w3 d).
    { intros w3 d Q. constructor; auto; [eapply SStop_quiet; eauto|]. intros _. destruct (quiet_never _ _ Q) as (Q1 & _). rewrite Q1. exact Hheld. }
    apply wp_bind. apply wp_any.
    + intros _ w3. apply wp_ret. intros Q. split; [now left|]. apply Fin, Q.
    + intros bd w3 Q. exists true. split; [apply Fin, Q|reflexivity].
  - intros bd w2 (Hb & H). exists false. split; [|congruence]. constructor; auto. discriminate.
Qed.

(** All outcomes of a run. *)
Definition outcome_spec (ok : bool) (w' : world) : Prop :=
  (ok = false /\ exists wk, started w wk /\ quiet0 wk w') \/ (exists wk su w1, ran wk su w1 w' ok).
Theorem wp_main : (b = true -> hash_reliable E w) ->
  wp (main E argv) (fun code w' => outcome_spec (code =? 0) w') (fun bd w' => exists d, outcome_spec d w' /\ (bd = BUB -> d = true)) w.
Proof.
  intros Hb. rewrite main_init. apply wp_bind. eapply wp_mono; [apply (wp_init E b argv w HS Hb)| |].
  - intros [su| |c] w1 (wk & Hk & Q & H).
    + eapply wp_mono; [apply (wp_run_sync wk su w1 Hk H)| |].
      * intros code w' (_ & R). right. eauto.
      * intros bd w' (d & R & Hd). exists d. split; [right; eauto|exact Hd].
    + apply wp_ret. left. split; [reflexivity|eauto].
    + apply wp_ret. subst c. left. split; [reflexivity|eauto].
  - intros bd w1 (Hbd & wk & Hk & Q). exists false. split; [|congruence]. left. split; [reflexivity|eauto].
Qed.
End Run.
