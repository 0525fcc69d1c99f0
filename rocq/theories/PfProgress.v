(** Progress over interrupted runs (C75). *)
From Verif Require Import Base Lib Utils Sha Chunker Caibx Index StoreLocal Target StoreHttp Chain Ui MainProg
  SpecBasic SpecEnv SpecChunker SpecStore SpecHttp SpecCaibx SpecMain SpecRun SpecProgress
  PfUtils PfBasic PfIO PfRead PfKeyspec PfIndex PfFrame PfLocal PfHttp PfHttp2 PfCaibx PfTarget PfChain PfMain PfMain2 PfSetup PfRun PfReadonly PfSync PfTransfers.
Local Open Scope N_scope.

(** ** The cost of one entry *)
Section Cost.
Variables (c : tev -> N) (E : env) (Wc : N) (Wt : N -> N).
Hypothesis Hchain : forall l t id out, weigh c Wc any (store_chain_get_chunk E l t id out).
Hypothesis Hput : forall t d l o i, weigh c (Wt l) any (target_write E t d l o i).
Hypothesis Hprog : forall p, c (TProgress p) = 0.
Lemma cost_progress n st : weigh c 0 any (entry_progress E n st).
Proof.
  unfold entry_progress. destruct (e_interactive E); [|apply weigh_ret; exact Logic.I].
  apply (weigh_bind _ _ _ 0 0 any); [rewrite <- (Hprog (main_percent ((m_handled st + 1) mod M32) n)); apply weigh_trace|]. intros _ _. apply weigh_ret. exact Logic.I.
Qed.
Lemma cost_fetch n o l i st : weigh c (Wc + Wt l) any (entry_fetch_write E n o l i st).
Proof.
  unfold entry_fetch_write. cbv zeta. eapply (weigh_bind _ _ _ _ _ any).
  - destruct (match m_last_id st with Some l0 => beq l0 i | None => false end); [apply weigh_ret_any; exact Logic.I|].
    destruct (m_store st) as [chain|]; [|apply weigh_ub_any]. replace Wc with (Wc + 0) by lia. apply (weigh_bind _ _ _ _ _ any); [apply Hchain|].
    intros [[[r b] c'] t'] _. destruct (match r with Some n0 => _ | None => false end); apply weigh_ret; exact Logic.I.
  - intros [ok st'] _. destruct (negb ok); [apply weigh_ret_any; exact Logic.I|]. replace (Wt l) with (Wt l + 0) by lia.
    apply (weigh_bind _ _ _ _ _ any); [apply Hput|]. intros [ok' t'] _. destruct (negb ok'); [apply weigh_ret; exact Logic.I|]. apply cost_progress.
Qed.
Lemma cost_entry n o l i st : weigh c (Wc + Wt l) any (entry_cb E n o l i st).
Proof.
  unfold entry_cb. destruct (m_resuming st); [|apply cost_fetch]. destruct (BUF_SIZE <? l); [apply weigh_ret_any; exact Logic.I|].
  replace (Wc + Wt l) with (0 + (Wc + Wt l)) by lia. apply (weigh_bind _ _ _ _ _ any); [apply (weigh_frame _ _ everywhere), frame_check_chunk|].
  intros [[r b] t'] _. destruct r as [[]|]; try apply cost_fetch. eapply weigh_le; [apply cost_progress|lia|auto].
Qed.
End Cost.

Lemma weight_total c tr : weight c tr = total c tr.
Proof. induction tr; cbn; congruence. Qed.

(** The three costs *)
Lemma puts_chain E l t id out : weigh put_ev 0 any (store_chain_get_chunk E l t id out).
Proof. apply (weigh_frame _ _ everywhere), frame_chain_get; reflexivity. Qed.
Lemma puts_write E t d l o i : weigh put_ev 1 any (target_write E t d l o i).
Proof.
  unfold target_write. destruct (blen d <? l); [apply weigh_ub_any|]. change 1 with (put_ev (TPut (t_ino t) o (firstn (N.to_nat l) d)) + 0).
  apply (weigh_bind _ _ _ _ _ any); [apply weigh_trace|]. intros _ _. apply (weigh_frame _ _ everywhere).
  apply frame_bind; [apply frame_pwriteall; [exact Logic.I|reflexivity]|]. intros [|]; cbn [negb]; [|apply frame_ret].
  apply frame_bind; [apply frame_add_chunk|intros; apply frame_ret].
Qed.
Lemma bytes_chain E l t id out : weigh put_bytes_ev 0 any (store_chain_get_chunk E l t id out).
Proof. apply (weigh_frame _ _ everywhere), frame_chain_get; reflexivity. Qed.
Lemma bytes_write E t d l o i : weigh put_bytes_ev l any (target_write E t d l o i).
Proof.
  unfold target_write. destruct (blen d <? l) eqn:Eb; [apply weigh_ub_any|].
  assert (L : put_bytes_ev (TPut (t_ino t) o (firstn (N.to_nat l) d)) = l) by (cbn; unfold blen in *; rewrite firstn_length; lia).
  eapply weigh_le; [apply (weigh_bind _ _ _ l 0 any any)| |]; [rewrite <- L at 1; apply weigh_trace| |lia|auto]. intros _ _. apply (weigh_frame _ _ everywhere).
  apply frame_bind; [apply frame_pwriteall; [exact Logic.I|reflexivity]|]. intros [|]; cbn [negb]; [|apply frame_ret].
  apply frame_bind; [apply frame_add_chunk|intros; apply frame_ret].
Qed.
Lemma asks_loop E s id : forall l i t out, weigh (ask_ev s) (if (i <=? s)%nat then 1 else 0) any (chain_loop E i l t id out).
Proof.
  induction l as [|[st a] l IH]; intros i t out; cbn [chain_loop ss_active ss_store].
  { apply weigh_ret_any. exact Logic.I. }
  assert (Rest : forall t o x, weigh (ask_ev s) (if (S i <=? s)%nat then 1 else 0) any ('(r0, o0, l', t0) <- chain_loop E (S i) l t id o ;; ret (r0, o0, x :: l', t0))).
  { intros t1 o x. eapply weigh_le; [apply (weigh_bind _ _ _ _ 0 any any _ _ (IH (S i) t1 o))| |]; [|lia|auto]. intros [[[r0 o0] l'] t0] _. apply weigh_ret. exact Logic.I. }
  destruct (negb a).
  - eapply weigh_le; [apply Rest| |auto]. destruct (Nat.leb_spec (S i) s), (Nat.leb_spec i s); lia.
  - assert (Hsum : ask_ev s (TQuery i id) + (0 + (0 + (if (S i <=? s)%nat then 1 else 0))) <= (if (i <=? s)%nat then 1 else 0)).
    { cbn [ask_ev]. destruct (Nat.eqb_spec i s), (Nat.leb_spec (S i) s), (Nat.leb_spec i s); lia. }
    eapply weigh_le; [apply (weigh_bind _ _ _ (ask_ev s (TQuery i id)) (0 + (0 + (if (S i <=? s)%nat then 1 else 0))) any any)|exact Hsum|auto]; [apply weigh_trace|]. intros _ _.
    apply (weigh_bind _ _ _ _ _ any); [apply (weigh_frame _ _ everywhere), frame_store_get; reflexivity|]. intros [[[r o] st'] t'] _.
    apply (weigh_bind _ _ _ _ _ any); [change 0 with (ask_ev s (TAnswer i r)); apply weigh_trace|]. intros _ _.
    destruct r as [n|]; [|apply Rest]. destruct (0 <? n); [apply weigh_ret_any; exact Logic.I|apply Rest].
Qed.
Lemma asks_chain E s l t id out : weigh (ask_ev s) 1 any (store_chain_get_chunk E l t id out).
Proof. eapply weigh_le; [apply asks_loop| |auto]. destruct (0 <=? s)%nat; lia. Qed.
Lemma asks_write E s t d l o i : weigh (ask_ev s) 0 any (target_write E t d l o i).
Proof. apply (weigh_frame _ _ everywhere), frame_target_write; [exact Logic.I|reflexivity|reflexivity]. Qed.

(** ** What lies before an entry stays *)
Section Below.
Variables (E : env) (tino : nat) (off : nat).
Definition keeps {A} (m : M A) : Prop := forall w, (off <= length (w_files w tino))%nat ->
  firstn off (w_files (snd (m w)) tino) = firstn off (w_files w tino).
Lemma firstn_same_le (g g' : bytes) : firstn off g' = firstn off g -> (off <= length g)%nat -> (off <= length g')%nat.
Proof. intros H L. apply (f_equal (@length N)) in H. rewrite !firstn_length in H. lia. Qed.
Lemma keeps_bind A B (m : M A) (k : A -> M B) : keeps m -> (forall a, keeps (k a)) -> keeps (bind m k).
Proof.
  intros Hm Hk w L. unfold bind. specialize (Hm w L). destruct (m w) as [[a| | |] w1]; cbn [snd] in *; auto.
  rewrite Hk; [exact Hm|]. eapply firstn_same_le; eauto.
Qed.
Lemma keeps_frame A (P : tev -> Prop) (m : M A) : frame none P m -> keeps m.
Proof. intros H w L. destruct (H w) as (F & _). now rewrite F by exact (fun x => x). Qed.
Lemma keeps_pwriteall i d o : (off <= N.to_nat o)%nat -> keeps (pwriteall E i d o).
Proof.
  intros Ho w L. unfold pwriteall. destruct (pwrite_loop (e_kind E i) (w_files w i) o d (w_io w) []) as [[[r f'] wr] ev'] eqn:EP.
  apply pwrite_loop_spec in EP as (n & _ & -> & _).
  assert (G : firstn off (upd_file (w_files w) i (fw (w_files w i) (N.to_nat o) (firstn n d)) tino) = firstn off (w_files w tino)).
  { unfold upd_file. destruct (Nat.eqb_spec tino i) as [<-|]; [|reflexivity]. unfold fw.
    destruct (firstn n d) as [|x l] eqn:Ed; [reflexivity|]. unfold file_write. rewrite firstn_app_le by (rewrite firstn_length; lia).
    rewrite firstn_firstn. f_equal. lia. }
  destruct r; exact G.
Qed.
Lemma keeps_write t d l o i : (off <= N.to_nat o)%nat -> keeps (target_write E t d l o i).
Proof.
  intros Ho. unfold target_write. destruct (blen d <? l); [apply (keeps_frame _ any), frame_ub|].
  apply keeps_bind; [apply (keeps_frame _ any), frame_trace; exact Logic.I|intros _]. apply keeps_bind; [now apply keeps_pwriteall|]. intros [|]; cbn [negb];
    [|apply (keeps_frame _ any), frame_ret]. apply (keeps_frame _ any), frame_bind; [apply frame_add_chunk|intros; apply frame_ret].
Qed.
Lemma keeps_progress n st : keeps (entry_progress E n st).
Proof.
  apply (keeps_frame _ any). unfold entry_progress. destruct (e_interactive E); [|apply frame_ret]. apply frame_bind; [apply frame_trace; exact Logic.I|intros; apply frame_ret].
Qed.
Lemma keeps_fetch n o l i st : (off <= N.to_nat o)%nat -> keeps (entry_fetch_write E n o l i st).
Proof.
  intros Ho. unfold entry_fetch_write. cbv zeta. apply keeps_bind.
  - apply (keeps_frame _ any). destruct (match m_last_id st with Some l0 => beq l0 i | None => false end); [apply frame_ret|].
    destruct (m_store st); [|apply frame_ub]. apply frame_bind; [apply frame_chain_get; intros; exact Logic.I|].
    intros [[[r b] c'] t']. destruct (match r with Some n0 => _ | None => false end); apply frame_ret.
  - intros [ok st']. destruct (negb ok); [apply (keeps_frame _ any), frame_ret|]. apply keeps_bind; [now apply keeps_write|]. intros [ok' t'].
    destruct (negb ok'); [apply (keeps_frame _ any), frame_ret|apply keeps_progress].
Qed.
Lemma keeps_entry n o l i st : (off <= N.to_nat o)%nat -> keeps (entry_cb E n o l i st).
Proof.
  intros Ho. unfold entry_cb. destruct (m_resuming st); [|now apply keeps_fetch]. destruct (BUF_SIZE <? l); [apply (keeps_frame _ any), frame_ret|].
  apply keeps_bind; [apply (keeps_frame _ any), frame_check_chunk|]. intros [[r b] t']. destruct r as [[]|]; try now apply keeps_fetch. apply keeps_progress.
Qed.
End Below.

Section Span.
Variable B : nat -> N.
(** The sum of the bounds from entry [a] on, before entry [a + d]. *)
Fixpoint span (a d : nat) : N := match d with O => 0 | S d' => B a + span (S a) d' end.
Lemma span_snoc d : forall a, span a (S d) = span a d + B (a + d)%nat.
Proof.
  induction d as [|d IH]; intros a; [cbn; rewrite Nat.add_0_r; lia|]. change (span a (S (S d))) with (B a + span (S a) (S d)).
  rewrite IH. cbn [span]. replace (S a + d)%nat with (a + S d)%nat by lia. lia.
Qed.
Lemma span_le a d d' : (d <= d')%nat -> span a d <= span a d'.
Proof. induction 1; [lia|]. rewrite span_snoc. lia. Qed.
End Span.

(** ** All entries of one run *)
Section Sync.
Variables (E : env) (f : bytes) (n k : nat) (tino iino : nat) (p : params) (w0 : world) (c : tev -> N) (B : nat -> N).
Hypothesis (HE : env_ok E) (Hsv : server_ok E) (Hwf : well_formed f n) (Hok : bytes_ok f) (Hlen : (64 + 40 * n <= length f)%nat) (Hlim : blen f < OFF_LIMIT).
Hypothesis (Hino : iino <> tino) (Hf0 : w_files w0 iino = f).
Hypothesis Hcost : forall m o i st, weigh c (B i) any (entry_cb E m o (ent_size f i) (ent_id f i) st).
Hypothesis Hidle : forall ev, ev_idle ev -> c ev = 0.
Hypothesis (Hk : (k <= n)%nat) (Hkc : kc_clean w0) (Hef : error_free (w_io w0)) (Hal : already E f tino w0 k).
Notation SI := (SInv E true f n tino w0).

Lemma span_upto i : (k <= i)%nat -> span B k (S i - k) = span B k (i - k) + B i.
Proof. intros H. replace (S i - k)%nat with (S (i - k)) by lia. rewrite span_snoc. do 2 f_equal. lia. Qed.

Definition PInv (i : nat) (last : N) (st : mstate) (w : world) : Prop :=
  SI i last st w /\ exists tr, w_trace w = tr ++ w_trace w0 /\ weight c tr <= span B k (i - k) /\ ((i <= k)%nat -> Forall ev_idle tr).
Definition PStop (w : world) : Prop :=
  exists i tr, (i <= n)%nat /\ w_trace w = tr ++ w_trace w0 /\ weight c tr <= span B k (Nat.min (S i) n - k) /\
    ((k <= i)%nat /\ (forall j, (j < i)%nat -> holds E true f j (w_files w tino)) \/ (i < k)%nat /\ weight c tr = 0 /\ w_files w tino = w_files w0 tino).

Lemma idle_weight tr : Forall ev_idle tr -> weight c tr = 0.
Proof. intros H. apply weight_zero. eapply Forall_impl; [|exact H]. exact Hidle. Qed.
Lemma app_same (a b l : list tev) : a ++ l = b ++ l -> a = b. Proof. apply app_inv_tail. Qed.
Lemma unchanged w tr : prov tino w0 w -> w_trace w = tr ++ w_trace w0 -> Forall ev_idle tr -> w_files w tino = w_files w0 tino.
Proof.
  intros (tr' & T & H) T' HI. rewrite T in T'. apply app_same in T'. subst tr'.
  apply nth_error_ext. intros q. destruct (H q) as [Hq|(o & D & r & Hin & _)]; [exact Hq|].
  rewrite Forall_forall in HI. destruct (HI _ Hin) as (_ & X & _). cbn in X. now elim X.
Qed.
Lemma PInv_io i last st w ev : PInv i last st w -> suffix ev (w_io w) -> PInv i last st (set_io ev w).
Proof. intros (A & R) H. split; [eapply SInv_io; eauto|exact R]. Qed.
Lemma PInv_stop i last st w : PInv i last st w -> PStop w.
Proof.
  intros (((_ & HC & _) & _) & tr & T & Wt & HI). exists i, tr. pose proof (mi_le _ _ _ _ _ _ _ _ _ HC). split; [exact H|]. split; [exact T|]. split.
  - destruct (Nat.le_gt_cases n i); [replace (Nat.min (S i) n) with i by lia; exact Wt|].
    replace (Nat.min (S i) n) with (S i) by lia. destruct (Nat.le_gt_cases k i); [rewrite span_upto by lia; lia|].
    replace (i - k)%nat with O in Wt by lia. cbn in Wt. lia.
  - destruct (Nat.le_gt_cases k i); [left|right].
    + split; [exact H0|]. apply (mi_held _ _ _ _ _ _ _ _ _ HC).
    + specialize (HI ltac:(lia)). split; [exact H0|]. split; [now apply idle_weight|]. eapply unchanged; eauto. apply HC.
Qed.

Lemma holds_below g g' j i : (j < i)%nat -> (i <= n)%nat -> ent_start f i <= blen g -> firstn (N.to_nat (ent_start f i)) g' = firstn (N.to_nat (ent_start f i)) g ->
  holds E true f j g -> holds E true f j g'.
Proof.
  intros Hj Hi L Hg (H1 & H2). assert (L' : ent_start f i <= blen g') by (apply firstn_same_le in Hg; unfold blen in *; lia).
  assert (Ej : ent_end f j <= ent_start f i) by (rewrite <- ent_start_S; apply (ent_start_mono f n Hwf); lia).
  split; [lia|]. intros Hp. specialize (H2 Hp). assert (Hs := ent_end_sum f n Hwf j ltac:(lia)).
  replace (slice (N.to_nat (ent_start f j)) (N.to_nat (ent_size f j)) g') with (slice (N.to_nat (ent_start f j)) (N.to_nat (ent_size f j)) g); [exact H2|].
  assert (G : forall h, ent_start f i <= blen h -> slice (N.to_nat (ent_start f j)) (N.to_nat (ent_size f j)) h = slice (N.to_nat (ent_start f j)) (N.to_nat (ent_size f j)) (firstn (N.to_nat (ent_start f i)) h)).
  { intros h Hh. unfold slice. rewrite skipn_firstn_comm, firstn_firstn. f_equal. lia. }
  rewrite (G g L), (G g' L'). congruence.
Qed.

Lemma progress_entry m i last st w ev : (i < n)%nat -> PInv i last st w -> suffix ev (w_io w) ->
  wp (entry_cb E m last (ent_size f i) (ent_id f i) st)
    (fun r w' => if fst r then PInv (S i) (ent_end f i) (snd r) w' else PStop w') (fun bd w' => PStop w') (set_io ev w).
Proof.
  intros Hi HP Hev. apply (PInv_io _ _ _ _ ev) in HP; [|exact Hev]. set (w1 := set_io ev w) in *. clearbody w1. clear w Hev.
  destruct HP as (HS & tr & T & Wt & HI). pose proof HS as ((Hlast & HC & HL) & segs0 & HSg & Lsegs & Hq & Hres). subst last.
  pose proof (sync_entry E true f n tino iino w0 HE Hsv Hwf Hlen Hlim Hino m i (ent_start f i) st w1 (w_io w1) Hi HS (suffix_refl _)) as W1.
  replace (set_io (w_io w1) w1) with w1 in W1 by (destruct w1; reflexivity).
  pose proof (wp_entry_cb E true f n tino w0 HE Hsv Hwf Hlen Hlim m i st w1 Hi (proj1 HS)) as W2. cbv zeta in W2.
  destruct (Hcost m (ent_start f i) i st w1) as ((tr1 & T1 & C1) & _).
  pose proof (keeps_entry E tino (N.to_nat (ent_start f i)) m (ent_start f i) (ent_size f i) (ent_id f i) st (le_n _) w1) as Kp.
  destruct (mi_held _ _ _ _ _ _ _ _ _ HC) as (B1 & _ & B3). specialize (Kp ltac:(unfold blen in B1; lia)).
  assert (T2 : forall w', w_trace w' = tr1 ++ w_trace w1 -> w_trace w' = (tr1 ++ tr) ++ w_trace w0) by (intros w' ->; rewrite T; apply app_assoc).
  assert (Idle : forall w', w_trace w' = tr1 ++ w_trace w1 -> (i < k)%nat ->
     (quiet (eq tino) ev_idle w1 w' \/ (m_resuming st = true -> differs E f tino i w1) /\ True) -> Forall ev_idle (tr1 ++ tr)).
  { intros w' Tw Hik HA. apply Forall_app. split; [|apply HI; lia]. destruct HA as [Q|(D & _)].
    - apply quiet_trace in Q as (tr2 & Q1 & Q2). rewrite Tw in Q1. apply app_inv_tail in Q1. now subst tr2.
    - exfalso. eapply (already_now E true f n tino iino w0 Hwf Hlen Hlim Hino i st w1); eauto; [|apply D, Hres; auto]; intros j Hj; apply Hal; lia. }
  assert (Weight : weight c (tr1 ++ tr) <= span B k (S i - k) \/ (i < k)%nat).
  { destruct (Nat.le_gt_cases k i) as [Hki|Hki]; [left|now right]. rewrite span_upto, weight_app by exact Hki. lia. }
  assert (Stop : forall w', w_trace w' = tr1 ++ w_trace w1 -> firstn (N.to_nat (ent_start f i)) (w_files w' tino) = firstn (N.to_nat (ent_start f i)) (w_files w1 tino) ->
     stopped E true f n tino w0 w' -> (quiet (eq tino) ev_idle w1 w' \/ (m_resuming st = true -> differs E f tino i w1) /\ True) -> PStop w').
  { intros w' Tw Fw St HA. exists i, (tr1 ++ tr). split; [lia|]. split; [now apply T2|]. replace (Nat.min (S i) n) with (S i) by lia.
    destruct (Nat.le_gt_cases k i) as [Hki|Hki].
    - split; [destruct Weight as [X|X]; [exact X|lia]|]. left. split; [exact Hki|]. intros j Hj. eapply holds_below with (i := i) (g := w_files w1 tino); eauto. lia.
    - pose proof (Idle w' Tw Hki HA) as HI'. rewrite (idle_weight _ HI'). split; [lia|]. right. split; [exact Hki|]. split; [reflexivity|].
      eapply unchanged; [apply St|apply T2; exact Tw|exact HI']. }
  unfold wp in *. destruct (entry_cb E m (ent_start f i) (ent_size f i) (ent_id f i) st w1) as [[[ok st']| | |] w']; cbn [fst snd] in *.
  - destruct ok.
    + split; [exact W1|]. exists (tr1 ++ tr). split; [now apply T2|]. destruct W2 as (_ & W2).
      assert (HA : quiet (eq tino) ev_idle w1 w' \/ (m_resuming st = true -> differs E f tino i w1) /\ True) by (destruct W2 as [(X & _)|((X & _) & _)]; auto).
      split; [|intros Hik; eapply Idle; eauto].
      destruct Weight as [X|X]; [exact X|]. rewrite (idle_weight _ (Idle w' T1 X HA)). lia.
    + destruct W2 as (W2a & W2b). apply Stop; auto. destruct W2b as [X|(X & _)]; auto.
  - destruct W2 as (_ & W2a & W2b). apply Stop; auto. destruct W2b as [X|(X & _)]; auto.
  - destruct W2 as (_ & W2a & W2b). apply Stop; auto. destruct W2b as [X|(X & _)]; auto.
  - destruct W2 as (_ & W2a & W2b). apply Stop; auto. destruct W2b as [X|(X & _)]; auto.
Qed.

Lemma progress_all m st : MInv E true f n tino w0 0 0 st w0 -> m_resuming st = true ->
  wp (caibx_iterate_entries (entry_cb E m) iino p (N.of_nat n) st)
     (fun r w' => if fst r then exists last', PInv n last' (snd r) w' else PStop w') (fun bd w' => PStop w') w0.
Proof.
  intros HM Hr. unfold caibx_iterate_entries. rewrite Nat2N.id.
  apply (iterate_prefix_rule (entry_cb E m) iino p f n Hok Hlen Hlim PInv (fun _ => PStop) (fun bd w' => PStop w')) with (i := O).
  - intros i last st' w (((_ & HC & _) & _) & _). rewrite <- Hf0. now apply HC.
  - intros i last st' w ev Hi HS Hev _. pose proof HS as (((-> & _) & _) & _). rewrite (not_skipped f n tino iino p Hwf Hok Hlen Hlim Hino i Hi), (ent_len_size f n tino iino Hwf Hok Hlen Hlim Hino i Hi).
    destruct (Hwf i Hi) as (_ & B' & _). rewrite N.mod_small by exact B'. now apply progress_entry.
  - intros i last st' w ev Hi HS Hev _. eapply PInv_stop, PInv_io; eauto.
  - intros i last st' w Hi HS _. eapply PInv_stop, PInv_io; eauto. exists (w_io w). now rewrite app_nil_r.
  - lia.
  - split; [|exists []; split; [reflexivity|split; [cbn; lia|auto]]].
    split; [exact HM|]. exists []. split; [apply (segmented_nil E true f n tino iino w0 Hlen Hlim Hino)|]. split; [reflexivity|]. split; [intros j seg H; destruct j; discriminate|auto].
Qed.
End Sync.

(** ** One run *)
Lemma weight_store c tr : (forall ev, store_ev ev -> c ev = 0) -> Forall store_ev tr -> weight c tr = 0.
Proof. intros H F. apply weight_zero. eapply Forall_impl; [|exact F]. exact H. Qed.

Section Run.
Variables (E : env) (argv : list bytes) (w : world) (iino tino : nat) (p : params) (n : N) (k : nat) (c : tev -> N) (B : nat -> N).
Notation f := (w_files w iino).
Hypothesis (HS : sane E argv w) (Hb : hash_reliable E w) (Hef : error_free (w_io w)).
Hypothesis (Ho : e_open E (cmd_index argv) = Some iino) (Ht : e_open_rw E (cmd_target argv) = Some tino) (HV : valid_index f p n).
Hypothesis (Hwf : well_formed f (N.to_nat n)) (Hu : usual_chunks f (N.to_nat n)).
Hypothesis (Hk : (k <= N.to_nat n)%nat) (Hp : prefix_present E f k (w_files w tino)).
Hypothesis Hcost : forall m o i st, weigh c (B i) any (entry_cb E m o (ent_size f i) (ent_id f i) st).
Hypothesis Hidle : forall ev, ev_idle ev -> c ev = 0.
Hypothesis Hstore : forall ev, store_ev ev -> c ev = 0.

Definition advanced (done : bool) (w' : world) : Prop :=
  exists tr k', run_trace w w' tr /\ (k <= k' <= N.to_nat n)%nat /\ prefix_present E f k' (w_files w' tino) /\
    weight c tr <= span B k (Nat.min (S k') (N.to_nat n) - k) /\ (done = true -> k' = N.to_nat n).

Lemma held_present i g : (i <= N.to_nat n)%nat -> (forall j, (j < i)%nat -> holds E true f j g) -> prefix_present E f i g.
Proof.
  intros Hi H j Hj. destruct (Hu j ltac:(lia)) as (U1 & U2). destruct (H j Hj) as (A & A'). split; [exact U2|]. split; [exact A|]. exact (A' U1).
Qed.

Lemma advanced_setup wk w' : started w wk -> quiet0 wk w' -> advanced false w'.
Proof.
  intros (kc & ->) Q. pose proof (quiet0_files _ _ Q) as F. destruct Q as (_ & _ & _ & _ & tr & T & TF). exists tr, k.
  split; [exact T|]. split; [lia|]. split; [rewrite F; exact Hp|]. rewrite (weight_store c tr Hstore TF). split; [lia|discriminate].
Qed.

Lemma advanced_stop wk su w1 w' : started w wk -> ready E true argv w wk su w1 ->
  PStop E f (N.to_nat n) k tino w1 c B w' -> advanced false w'.
Proof.
  intros Hs HR (i & tr & Hi & T & Wt & D). pose proof (ready_files _ _ _ _ _ _ _ Hs HR) as Hfil. destruct Hs as (kc & ->).
  destruct (rd_quiet _ _ _ _ _ _ _ HR) as (_ & _ & _ & _ & tr0 & T0 & F0). cbn [w_trace set_kcapi] in T0.
  assert (Tr : run_trace w w' (tr ++ tr0)) by (unfold run_trace; now rewrite T, T0, app_assoc).
  assert (W0 : weight c (tr ++ tr0) = weight c tr) by (rewrite weight_app, (weight_store c tr0 Hstore F0); lia).
  destruct D as [(Hki & Hh)|(Hki & Wz & Hg)].
  - exists (tr ++ tr0), i. split; [exact Tr|]. split; [lia|]. split; [now apply held_present|]. rewrite W0. split; [exact Wt|discriminate].
  - exists (tr ++ tr0), k. split; [exact Tr|]. split; [lia|]. split; [rewrite Hg, Hfil; exact Hp|]. rewrite W0, Wz. split; [lia|discriminate].
Qed.

Lemma run_progress : advanced (succeeded (fst (main E argv w))) (snd (main E argv w)).
Proof.
  enough (G : wp (main E argv) (fun code w' => advanced (code =? 0) w') (fun bd w' => advanced false w') w).
  { unfold wp in G. destruct (main E argv w) as [[code| | |] w']; exact G. }
  rewrite main_init. apply wp_bind. eapply wp_mono; [apply (wp_init E true argv w HS ltac:(auto))| |].
  2:{ intros bd w1 (_ & wk & Hs & Q). eapply advanced_setup; eauto. }
  intros [su| |code] w1 (wk & Hs & Q & HR).
  2:{ apply wp_ret. eapply advanced_setup; eauto. }
  2:{ apply wp_ret. subst code. eapply advanced_setup; eauto. }
  pose proof (ready_files _ _ _ _ _ _ _ Hs HR) as Hfil. pose proof (ready_initial _ _ _ _ _ _ _ HS Hs HR) as HM. cbv zeta in HM.
  assert (Ei : su_index su = iino) by (pose proof (rd_index _ _ _ _ _ _ _ HR); congruence).
  assert (Et : t_ino (su_target su) = tino) by (pose proof (rd_target _ _ _ _ _ _ _ HR); congruence).
  pose proof (rd_valid _ _ _ _ _ _ _ HR) as HV'. rewrite Ei in HV'. assert (En : su_n su = n) by (eapply valid_unique; eauto).
  rewrite Ei, Et, En in HM. set (nn := N.to_nat n) in *. assert (Hn : n = N.of_nat nn) by (unfold nn; lia).
  assert (Hne : iino <> tino) by (intros ->; apply (sa_index _ _ _ HS tino Ht); exact Ho).
  assert (Hkc : kc_clean w1) by (apply (rd_mode _ _ _ _ _ _ _ HR); reflexivity).
  assert (Hio : error_free (w_io w1)).
  { destruct Hs as (kc & ->). pose proof (rd_quiet _ _ _ _ _ _ _ HR) as (_ & Q1 & _). eapply error_free_suffix; [exact Q1|exact Hef]. }
  assert (Ha : already E f tino w1 k).
  { intros j Hj. destruct (Hp j Hj) as (A & A' & C). rewrite Hfil. split; [exact A|]. split; [exact A'|]. destruct (sa_files _ _ _ HS tino) as (_ & L).
    destruct (Hwf j ltac:(lia)) as (W1 & _). split; [eapply N.le_lt_trans; [exact W1|eapply N.le_lt_trans; [exact A'|exact L]]|]. rewrite slice_N_slice. exact C. }
  unfold run_sync. rewrite Ei, En. apply wp_bind. rewrite Hn.
  assert (Fin : forall w2 w3, quiet none never w2 w3 -> PStop E f nn k tino w1 c B w2 -> PStop E f nn k tino w1 c B w3).
  { intros w2 w3 Q23 X. apply quiet_never in Q23 as (Q1 & Q2). unfold PStop in *. now rewrite Q1, Q2. }
  eapply wp_mono; [apply (progress_all E f nn k tino iino (su_params su) w1 c B (sa_env _ _ _ HS) (sa_server _ _ _ HS) Hwf)|..]; auto.
  - apply (sa_files _ _ _ HS).
  - eapply valid_length; eauto.
  - apply (sa_files _ _ _ HS).
  - intros [ok st] w2 H. cbn [fst snd] in H. destruct ok; cbn [negb].
    2:{ apply wp_ret. eapply advanced_stop; eauto. }
    destruct H as (last & HI). pose proof HI as (((_ & HC & _) & _) & tr & T & Wt & _).
    assert (HStop : PStop E f nn k tino w1 c B w2) by (eapply PInv_stop with (iino := iino); eauto; apply (sa_files _ _ _ HS) || (eapply valid_length; eauto) || idtac).
    destruct (mi_chain _ _ _ _ _ _ _ _ _ HC) as (l & Hl & _). rewrite Hl.
    apply (wp_frame none never).
    { apply frame_bind; [apply frame_chain_free|intros; apply frame_ret]. }
    apply wp_bind. apply wp_any.
    + intros _ w3. apply wp_ret. intros Q23. destruct (advanced_stop wk su w1 w3 Hs HR (Fin _ _ Q23 HStop)) as (tr' & k' & A1 & A2 & A3 & A4 & _).
      exists tr', nn. split; [exact A1|]. split; [lia|]. apply quiet_never in Q23 as (Q1 & _). split.
      * rewrite Q1. apply held_present; [lia|]. apply (mi_held _ _ _ _ _ _ _ _ _ HC).
      * split; [|auto]. eapply N.le_trans; [exact A4|]. apply span_le. lia.
    + intros bd w3 Q23. eapply advanced_stop; eauto.
  - intros bd w2 H. eapply advanced_stop; eauto.
Qed.
End Run.

(** ** Several runs *)
Lemma span_add B e : forall a d, span B a (d + e) = span B a d + span B (a + d) e.
Proof. intros a d. revert a. induction d as [|d IH]; intros a; cbn [span Nat.add]; [now rewrite Nat.add_0_r|]. rewrite IH. replace (S a + d)%nat with (a + S d)%nat by lia. lia. Qed.
Lemma span_one d : forall a, span (fun _ => 1) a d = N.of_nat d.
Proof. induction d as [|d IH]; intros a; cbn [span]; [reflexivity|]. rewrite IH. lia. Qed.
Lemma span_size f n : well_formed f n -> forall d a, (a + d <= n)%nat -> span (ent_size f) a d = ent_start f (a + d) - ent_start f a.
Proof.
  intros Hwf. induction d as [|d IH]; intros a Hd; cbn [span]; [rewrite Nat.add_0_r; lia|]. rewrite IH by lia. replace (S a + d)%nat with (a + S d)%nat by lia.
  pose proof (ent_start_mono f n Hwf (S a) (a + S d) ltac:(lia) ltac:(lia)) as H1. pose proof (ent_start_mono f n Hwf a (S a) ltac:(lia) ltac:(lia)) as H2.
  rewrite ent_start_S in *. unfold ent_size. lia.
Qed.
Lemma weight_concat_app c a b : weight c (a ++ b) = weight c a + weight c b. Proof. apply weight_app. Qed.

Section Attempts.
Variables (h : bytes -> bytes) (f : bytes) (p : params) (n : N) (c : tev -> N) (B : nat -> N) (Bmax : N).
Hypothesis (HV : valid_index f p n) (Hwf : well_formed f (N.to_nat n)) (Hu : usual_chunks f (N.to_nat n)).
Hypothesis Hcost : forall E m o i st, weigh c (B i) any (entry_cb E m o (ent_size f i) (ent_id f i) st).
Hypothesis Hidle : forall ev, ev_idle ev -> c ev = 0.
Hypothesis Hstore : forall ev, store_ev ev -> c ev = 0.
Hypothesis Hmax : forall i, (i < N.to_nat n)%nat -> B i <= Bmax.

(** A run whose index or target cannot be opened does nothing. *)
Lemma unopened E argv w tr : sane E argv w -> (forall i, e_open E (cmd_index argv) = Some i -> w_files w i = f) ->
  e_open E (cmd_index argv) = None \/ e_open_rw E (cmd_target argv) = None -> run_trace w (snd (main E argv w)) tr ->
  (forall i, w_files (snd (main E argv w)) i = w_files w i) /\ weight c tr = 0 /\ succeeded (fst (main E argv w)) = false.
Proof.
  intros HS Hi Hn Htr.
  assert (HG : good_index E argv w).
  { intros ino p' n' Ho' HV'. rewrite (Hi ino Ho') in *. assert (n' = n) as -> by (eapply valid_unique; eauto). exact Hwf. }
  assert (Hfail : succeeded (fst (main E argv w)) = false).
  { destruct (main E argv w) as [[code| | |] w'] eqn:Em; try reflexivity. cbn [fst succeeded]. destruct (N.eqb_spec code 0) as [->|]; [|reflexivity]. exfalso.
    destruct (main_ok E false argv w w' HS HG ltac:(discriminate) Em) as (wk & su & w1 & HR).
    pose proof (rd_target _ _ _ _ _ _ _ (ran_ready _ _ _ _ _ _ _ _ _ HR)). pose proof (rd_index _ _ _ _ _ _ _ (ran_ready _ _ _ _ _ _ _ _ _ HR)). destruct Hn; congruence. }
  destruct (main_any E false argv w HS HG ltac:(discriminate)) as (d & [(_ & wk & (kc & ->) & Q)|(wk & su & w1 & HR)]).
  - pose proof (quiet0_files _ _ Q) as F. destruct Q as (_ & _ & _ & _ & tr' & T & TF). cbn [w_trace w_files set_kcapi] in T, F.
    unfold run_trace in Htr. rewrite Htr in T. apply app_inv_tail in T. subst tr'. split; [intros i; now rewrite F|]. split; [apply (weight_store c tr Hstore TF)|exact Hfail].
  - exfalso. pose proof (rd_target _ _ _ _ _ _ _ (ran_ready _ _ _ _ _ _ _ _ _ HR)). pose proof (rd_index _ _ _ _ _ _ _ (ran_ready _ _ _ _ _ _ _ _ _ HR)). destruct Hn; congruence.
Qed.

Lemma restarts_kept g trs stops g' : restarts h f g trs stops g' -> forall k, (k <= N.to_nat n)%nat -> in_place h f k g ->
  exists k', (k <= k' <= N.to_nat n)%nat /\ in_place h f k' g' /\ weight c (concat trs) <= span B k (k' - k) + stops * Bmax /\
    stops <= N.of_nat (length trs) /\ (stops < N.of_nat (length trs) -> k' = N.to_nat n).
Proof.
  intros HA. induction HA as [g|E argv w t tr trs stops g' EH HS Hb Hef Hi Ht Htr HA IH]; intros k Hk Hp.
  { exists k. split; [lia|]. split; [exact Hp|]. cbn. split; [lia|]. split; [lia|]. intros X. exfalso. lia. }
  assert (X : e_open E (cmd_index argv) = None \/ e_open_rw E (cmd_target argv) = None -> exists k', (k <= k' <= N.to_nat n)%nat /\ in_place h f k' g' /\
    weight c (concat (tr :: trs)) <= span B k (k' - k) + ((if succeeded (fst (main E argv w)) then 0 else 1) + stops) * Bmax /\
    (if succeeded (fst (main E argv w)) then 0 else 1) + stops <= N.of_nat (length (tr :: trs)) /\
    ((if succeeded (fst (main E argv w)) then 0 else 1) + stops < N.of_nat (length (tr :: trs)) -> k' = N.to_nat n)).
  { intros Hn. destruct (unopened E argv w tr HS Hi Hn Htr) as (F & Z & Y). rewrite F in IH. destruct (IH k Hk Hp) as (k' & K & P & W & W' & D). exists k'. split; [exact K|].
    split; [exact P|]. cbn [concat length]. rewrite weight_app, Z, Y. split; [lia|]. split; [lia|]. intros X. apply D. lia. }
  destruct (e_open E (cmd_index argv)) as [iino|] eqn:Ho; [|auto]. destruct (e_open_rw E (cmd_target argv)) as [tino|] eqn:Htt; [|auto]. clear X.
  pose proof (Ht tino eq_refl) as <-. pose proof (Hi iino eq_refl) as Hf.
  assert (Hp' : prefix_present E (w_files w iino) k (w_files w tino)) by (unfold prefix_present; rewrite Hf, EH; exact Hp).
  assert (HV' := HV). assert (Hwf' := Hwf). assert (Hu' := Hu). assert (Hc' := Hcost E). rewrite <- Hf in HV', Hwf', Hu', Hc'.
  destruct (run_progress E argv w iino tino p n k c B HS Hb Hef Ho Htt HV' Hwf' Hu' Hk Hp' Hc' Hidle Hstore) as (tr1 & k1 & T1 & K1 & P1 & W1 & D1).
  unfold run_trace in *. rewrite Htr in T1. apply app_inv_tail in T1. subst tr1.
  assert (P1' : in_place h f k1 (w_files (snd (main E argv w)) tino)) by (unfold prefix_present in P1; rewrite Hf, EH in P1; exact P1).
  destruct (IH k1 ltac:(lia) P1') as (k2 & K2 & P2 & W2 & L2 & D2). exists k2. split; [lia|]. split; [exact P2|].
  cbn [concat length]. rewrite weight_app.
  assert (Sp : span B k (k2 - k) = span B k (k1 - k) + span B k1 (k2 - k1)).
  { replace (k2 - k)%nat with ((k1 - k) + (k2 - k1))%nat by lia. rewrite span_add. do 2 f_equal. lia. }
  assert (W : weight c tr <= span B k (k1 - k) + (if succeeded (fst (main E argv w)) then 0 else 1) * Bmax).
  { destruct (succeeded (fst (main E argv w))).
    - specialize (D1 eq_refl). replace (Nat.min (S k1) (N.to_nat n)) with k1 in W1 by lia. lia.
    - destruct (Nat.eq_dec k1 (N.to_nat n)) as [Hn|Hn]; [replace (Nat.min (S k1) (N.to_nat n)) with k1 in W1 by lia; lia|].
      replace (Nat.min (S k1) (N.to_nat n) - k)%nat with (S (k1 - k)) in W1 by lia. rewrite span_snoc in W1. pose proof (Hmax (k + (k1 - k))%nat ltac:(lia)). lia. }
  split; [destruct (succeeded (fst (main E argv w))); lia|]. split; [destruct (succeeded (fst (main E argv w))); lia|].
  intros X. destruct (succeeded (fst (main E argv w))); [specialize (D1 eq_refl); lia|]. apply D2. lia.
Qed.
Lemma restarts_total g trs stops g' : restarts h f g trs stops g' -> total c (concat trs) <= span B 0 (N.to_nat n) + stops * Bmax.
Proof.
  intros HA. rewrite <- weight_total. destruct (restarts_kept g trs stops g' HA 0%nat ltac:(lia)) as (k' & K & _ & W & _); [intros j Hj; lia|].
  rewrite Nat.sub_0_r in W. pose proof (span_le B 0 k' (N.to_nat n) ltac:(lia)). lia.
Qed.
End Attempts.

Lemma idle_put ev : ev_idle ev -> put_ev ev = 0. Proof. destruct ev; cbn; intros (A & C & D); try reflexivity. now elim C. Qed.
Lemma idle_bytes ev : ev_idle ev -> put_bytes_ev ev = 0. Proof. destruct ev; cbn; intros (A & C & D); try reflexivity. now elim C. Qed.
Lemma idle_ask s ev : ev_idle ev -> ask_ev s ev = 0. Proof. destruct ev; cbn; intros (A & C & D); try reflexivity. now elim A. Qed.

Lemma interrupted_progress h f g trs stops g' p n : restarts h f g trs stops g' -> valid_index f p n ->
  well_formed f (N.to_nat n) -> usual_chunks f (N.to_nat n) ->
  total put_ev (concat trs) <= n + stops /\
  total put_bytes_ev (concat trs) <= ent_start f (N.to_nat n) + stops * BUF_SIZE /\
  forall s, total (ask_ev s) (concat trs) <= n + stops.
Proof.
  intros HA HV Hwf Hu. split; [|split].
  - pose proof (restarts_total h f p n put_ev (fun _ => 1) 1 HV Hwf Hu) as H. specialize (H (fun E m o i st => cost_entry put_ev E 0 (fun _ => 1) (puts_chain E) (puts_write E) (fun _ => eq_refl) m o _ _ st) idle_put).
    specialize (H ltac:(intros [] X; try reflexivity; destruct X) (fun i _ => N.le_refl 1) g trs stops g' HA). rewrite span_one in H. lia.
  - pose proof (restarts_total h f p n put_bytes_ev (ent_size f) BUF_SIZE HV Hwf Hu) as H.
    specialize (H (fun E m o i st => cost_entry put_bytes_ev E 0 (fun l => l) (bytes_chain E) (bytes_write E) (fun _ => eq_refl) m o _ _ st) idle_bytes).
    specialize (H ltac:(intros [] X; try reflexivity; destruct X) ltac:(intros i Hi; apply Hu, Hi) g trs stops g' HA).
    rewrite (span_size f (N.to_nat n) Hwf) in H by lia. cbn [ent_start Nat.add] in H. rewrite N.sub_0_r in H. exact H.
  - intros s. pose proof (restarts_total h f p n (ask_ev s) (fun _ => 1) 1 HV Hwf Hu) as H.
    assert (Hc : forall E m o i st, weigh (ask_ev s) 1 any (entry_cb E m o (ent_size f i) (ent_id f i) st)).
    { intros E m o i st. apply (cost_entry (ask_ev s) E 1 (fun _ => 0) (asks_chain E s) (asks_write E s) (fun _ => eq_refl)). }
    specialize (H Hc (idle_ask s)). specialize (H ltac:(intros [] X; try reflexivity; destruct X) (fun i _ => N.le_refl 1) g trs stops g' HA). rewrite span_one in H. lia.
Qed.

(** What has been reached is kept. *)
Lemma interrupted_keeps h f g trs stops g' p n k : restarts h f g trs stops g' -> valid_index f p n ->
  well_formed f (N.to_nat n) -> usual_chunks f (N.to_nat n) -> (k <= N.to_nat n)%nat -> in_place h f k g -> in_place h f k g'.
Proof.
  intros HA HV Hwf Hu Hk Hp.
  destruct (restarts_kept h f p n put_ev (fun _ => 1) 1 HV Hwf Hu (fun E m o i st => cost_entry put_ev E 0 (fun _ => 1) (puts_chain E) (puts_write E) (fun _ => eq_refl) m o _ _ st) idle_put
    ltac:(intros [] X; try reflexivity; destruct X) (fun i _ => N.le_refl 1) g trs stops g' HA k Hk Hp) as (k' & K & P & _).
  intros j Hj. apply P. lia.
Qed.

(** After a success all chunks are in place, whatever the later runs did. *)
Lemma interrupted_done h f g trs stops g' p n : restarts h f g trs stops g' -> valid_index f p n ->
  well_formed f (N.to_nat n) -> usual_chunks f (N.to_nat n) -> stops < N.of_nat (length trs) -> in_place h f (N.to_nat n) g'.
Proof.
  intros HA HV Hwf Hu Hs.
  destruct (restarts_kept h f p n put_ev (fun _ => 1) 1 HV Hwf Hu (fun E m o i st => cost_entry put_ev E 0 (fun _ => 1) (puts_chain E) (puts_write E) (fun _ => eq_refl) m o _ _ st) idle_put
    ltac:(intros [] X; try reflexivity; destruct X) (fun i _ => N.le_refl 1) g trs stops g' HA 0%nat ltac:(lia) ltac:(intros j Hj; lia)) as (k' & K & P & _ & _ & D).
  rewrite <- (D Hs). exact P.
Qed.
