(** Proofs about the number of queries (C107). *)
From Verif Require Import Base Lib Utils Log SpecLog LogSites Sha Chunker Caibx Index StoreLocal Target StoreHttp Chain Ui MainProg Queries
  SpecBasic SpecEnv SpecChunker SpecStore SpecHttp SpecCaibx SpecMain SpecRun SpecOrder SpecStats SpecReport SpecQueries
  PfUtils PfBasic PfRead PfIO PfCaibx PfFrame PfLocal PfTarget PfChain PfMain PfMain2 PfSetup PfRun PfReadonly PfSync PfTally PfLog PfLog2 PfReport Ex12.
Local Open Scope N_scope.

(** ** The counter changes nothing else *)
Definition with_q {A B} (h : A -> B) (x : outcome A * world) : outcome B * world :=
  match x with (Ok a, w) => (Ok (h a), w) | (Abort, w) => (Abort, w) | (UB, w) => (UB, w) | (Halt, w) => (Halt, w) end.
Lemma with_q_with A B C (h : A -> B) (g : B -> C) x : with_q g (with_q h x) = with_q (fun a => g (h a)) x.
Proof. destruct x as [[a| | |] w]; reflexivity. Qed.
Definition next_q (id : bytes) (st : mstate) (q : N) : N := if same_last id st then q else (q + 1) mod M32.

Lemma fetch_q_eq E n o len id st q w :
  fetch_q E n o len id (st, q) w = with_q (fun r : bool * mstate => (fst r, (snd r, next_q id st q))) (entry_fetch_write E n o len id st w).
Proof.
  assert (P : forall st1 (q1 : N) w1, bind (entry_progress E n st1) (fun '(ok, st2) => ret (ok, (st2, q1))) w1 = with_q (fun r : bool * mstate => (fst r, (snd r, q1))) (entry_progress E n st1 w1)).
  { intros st1 q1 w1. unfold bind. destruct (entry_progress E n st1 w1) as [[[ok st2]| | |] w2]; reflexivity. }
  assert (Wr : forall st1 (q1 : N) w1,
    ('(ok, t) <- target_write E (m_target st1) (m_buf st1) len o id ;;
      let st2 := m_set st1 (m_store st1) t (m_last_id st1) (m_resuming st1) (m_buf st1) in
      if negb (ok : bool) then ret (false, (st2, q1)) else '(ok, st3) <- entry_progress E n st2 ;; ret (ok, (st3, q1))) w1 =
    with_q (fun r : bool * mstate => (fst r, (snd r, q1)))
     (('(ok, t) <- target_write E (m_target st1) (m_buf st1) len o id ;;
      let st2 := m_set st1 (m_store st1) t (m_last_id st1) (m_resuming st1) (m_buf st1) in
      if negb (ok : bool) then ret (false, st2) else entry_progress E n st2) w1)).
  { intros st1 q1 w1. unfold bind at 1 3. destruct (target_write E (m_target st1) (m_buf st1) len o id w1) as [[[ok t]| | |] w2]; cbn [with_q]; try reflexivity.
    cbv zeta. destruct (negb ok); [reflexivity|]. apply P. }
  unfold fetch_q, entry_fetch_write, next_q. fold (same_last id st). destruct (same_last id st).
  - exact (Wr st q w).
  - destruct (m_store st) as [chain|]; [|reflexivity]. unfold chain_get_q. unfold bind in *.
    destruct (store_chain_get_chunk E chain (m_target st) id (m_buf st) w) as [[[[[r buf] ch] t]| | |] w1]; cbn [with_q]; try reflexivity.
    change (ret (r, buf, ch, t, (q + 1) mod M32) w1) with (Ok (r, buf, ch, t, (q + 1) mod M32), w1). cbv iota beta zeta.
    destruct (match r with Some n0 => n0 =? len | None => false end); [|reflexivity].
    exact (Wr (m_set st (Some ch) t (Some id) (m_resuming st) buf) ((q + 1) mod M32) w1).
Qed.

(** Whether the chain was asked for an entry shows in the state after it. *)
Definition entry_next (id : bytes) (st st' : mstate) (q : N) : N := if m_resuming st' then q else next_q id st q.
Lemma progress_same E n st w : match entry_progress E n st w with (Ok (_, st'), _) => m_resuming st' = m_resuming st | _ => True end.
Proof. unfold entry_progress. destruct (e_interactive E); reflexivity. Qed.
Lemma fetch_same E n o len id st w : match entry_fetch_write E n o len id st w with (Ok (_, st'), _) => m_resuming st' = m_resuming st | _ => True end.
Proof.
  unfold entry_fetch_write. unfold bind at 1.
  match goal with |- context [match ?m w with _ => _ end] => assert (G : match m w with (Ok (_, st'), _) => m_resuming st' = m_resuming st | _ => True end) end.
  { destruct (match m_last_id st with Some l => beq l id | None => false end); [reflexivity|]. destruct (m_store st); [|exact I]. unfold bind.
    destruct (store_chain_get_chunk E l (m_target st) id (m_buf st) w) as [[[[[r buf] ch] t]| | |] w1]; try exact I. destruct (match r with Some n0 => n0 =? len | None => false end); reflexivity. }
  match goal with |- context [match ?m w with _ => _ end] => destruct (m w) as [[[ok st1]| | |] w1] end; try exact I.
  destruct (negb ok); [exact G|]. unfold bind. destruct (target_write E (m_target st1) (m_buf st1) len o id w1) as [[[ok2 t]| | |] w2]; try exact I. cbv zeta.
  destruct (negb ok2); [exact G|]. match goal with |- context [entry_progress E n ?s w2] => pose proof (progress_same E n s w2) as X; destruct (entry_progress E n s w2) as [[[ok3 st3]| | |] w3] end; auto.
  rewrite X. exact G.
Qed.
Lemma entry_q_eq E n o len id st q w :
  entry_q E n o len id (st, q) w = with_q (fun r : bool * mstate => (fst r, (snd r, entry_next id st (snd r) q))) (entry_cb E n o len id st w).
Proof.
  assert (F : forall st1 w1, m_resuming st1 = false -> m_last_id st1 = m_last_id st -> fetch_q E n o len id (st1, q) w1 =
    with_q (fun r : bool * mstate => (fst r, (snd r, entry_next id st (snd r) q))) (entry_fetch_write E n o len id st1 w1)).
  { intros st1 w1 R L. rewrite fetch_q_eq. pose proof (fetch_same E n o len id st1 w1) as X. destruct (entry_fetch_write E n o len id st1 w1) as [[[ok st2]| | |] w2]; cbn [with_q fst snd]; try reflexivity.
    unfold entry_next, next_q, same_last. now rewrite X, R, L. }
  unfold entry_q, entry_cb. destruct (m_resuming st) eqn:Er; [|now apply F].
  destruct (BUF_SIZE <? len). { cbn [ret with_q fst snd]. unfold ret. cbn [with_q fst snd]. unfold entry_next. now rewrite Er. }
  unfold bind at 1 3. destruct (target_check_chunk E (m_target st) (m_buf st) len o id w) as [[[[r buf] t]| | |] w1]; cbn [with_q]; try reflexivity.
  destruct r as [[|]|]; [|now apply F|now apply F].
  match goal with |- context [entry_progress E n ?s] => pose proof (progress_same E n s w1) as X; unfold bind; destruct (entry_progress E n s w1) as [[[ok st2]| | |] w2] end; try reflexivity.
  cbn [with_q fst snd]. unfold entry_next. cbn [m_resuming] in X. rewrite X. reflexivity.
Qed.
Lemma entry_erase E n o len id sq w : with_q (fun r => (fst r, fst (snd r))) (entry_q E n o len id sq w) = entry_cb E n o len id (fst sq) w.
Proof. destruct sq as [st q]. rewrite entry_q_eq, with_q_with. cbn [fst snd]. destruct (entry_cb E n o len id st w) as [[[ok st']| | |] w']; reflexivity. Qed.

Lemma iterate_erase (cb : N -> N -> bytes -> mstate -> M (bool * mstate)) (cbq : N -> N -> bytes -> mstate * N -> M (bool * (mstate * N))) ino p nn :
  (forall o l i sq w, with_q (fun r => (fst r, fst (snd r))) (cbq o l i sq w) = cb o l i (fst sq) w) ->
  forall k i last sq w, with_q (fun r => (fst r, fst (snd r))) (iterate_loop cbq ino p nn k i last sq w) = iterate_loop cb ino p nn k i last (fst sq) w.
Proof.
  intros H. induction k as [|k IH]; intros i last sq w; cbn [iterate_loop]; [reflexivity|]. unfold bind at 1 3.
  destruct (readall ino (CA_HEADER_LEN + CA_TABLE_HEADER_LEN + i * CA_TABLE_ENTRY_LEN) CA_TABLE_ENTRY_LEN w) as [[[ok d]| | |] w1]; cbn [with_q]; try reflexivity.
  destruct (negb ok); [reflexivity|]. cbv zeta. destruct (_ && _); [apply IH|]. unfold bind. rewrite <- H.
  match goal with |- context [cbq ?a ?b ?c sq w1] => destruct (cbq a b c sq w1) as [[[ok2 sq2]| | |] w2] end; cbn [with_q fst snd]; try reflexivity.
  destruct (negb ok2); [reflexivity|apply IH].
Qed.
Lemma run_erase E su w : with_q fst (run_q E su w) = run_sync E su w.
Proof.
  unfold run_q, run_sync, bind. unfold caibx_iterate_entries.
  pose proof (iterate_erase (entry_cb E (su_n su)) (entry_q E (su_n su)) (su_index su) (su_params su) (su_n su) (entry_erase E (su_n su)) (N.to_nat (su_n su)) 0 0 (initial_mstate su, 0) w) as X.
  cbn [fst] in X. rewrite <- X. destruct (iterate_loop (entry_q E (su_n su)) (su_index su) (su_params su) (su_n su) (N.to_nat (su_n su)) 0 0 (initial_mstate su, 0) w) as [[[ok [st q]]| | |] w1]; cbn [with_q fst snd]; try reflexivity.
  destruct (negb ok); [reflexivity|]. destruct (m_store st) as [chain|]; [|reflexivity]. destruct (store_chain_free chain w1) as [[u| | |] w2]; reflexivity.
Qed.
Lemma main_erase E argv w : with_q fst (main_q E argv w) = main E argv w.
Proof.
  unfold main_q, main, bind. cbv zeta.
  match goal with |- context [match ?m w with _ => _ end] => destruct (m w) as [[[su| |c]| | |] w1] end; try reflexivity. apply run_erase.
Qed.
Lemma main_same E argv w :
  match main_q E argv w with
  | (Ok (c, _), w') => main E argv w = (Ok c, w')
  | (Abort, w') => main E argv w = (Abort, w')
  | (UB, w') => main E argv w = (UB, w')
  | (Halt, w') => main E argv w = (Halt, w')
  end.
Proof. rewrite <- main_erase. destruct (main_q E argv w) as [[[c o]| | |] w']; reflexivity. Qed.

(** ** What it counts *)
Lemma entry_tally E m nn o len id st w : 0 < len -> has_chain nn st ->
  wp (entry_cb E m o len id st) (fun r w' => fst r = true -> has_chain nn (snd r) /\ tally nn (if m_resuming (snd r) then 0 else if same_last id st then 0 else 1) w w') (fun _ _ => True) w.
Proof.
  intros Hl Hc. unfold entry_cb. destruct (m_resuming st) eqn:Er.
  - destruct (BUF_SIZE <? len); [apply wp_ret; discriminate|]. apply wp_bind. apply (wp_frame none no_answer); [apply frame_check_chunk|]. apply wp_any; [|auto].
    intros [[r buf] t] w1 Q. assert (T : tally nn 0 w w1) by (eapply tally_quiet; [|exact Q]; auto).
    assert (F : wp (entry_fetch_write E m o len id (m_set st (m_store st) t (m_last_id st) false buf))
      (fun r w' => fst r = true -> has_chain nn (snd r) /\ tally nn (if m_resuming (snd r) then 0 else if same_last id st then 0 else 1) w w') (fun _ _ => True) w1).
    { eapply wp_mono; [apply (tally_fetch E m nn); [exact Hl|exact Hc]| |auto]. intros x w2 K Hx. destruct (K Hx) as (K1 & K2 & _ & K4 & _). cbn in K4. rewrite K4. split; [exact K2|].
      apply (tally_trans nn 0 _ w w1 w2 T K1). }
    destruct r as [[|]|]; auto. eapply wp_mono; [apply (tally_progress E m nn)| |auto]. intros x w2 (_ & P1 & _ & P3 & _ & _ & P6 & _) _. cbn in P6. rewrite P6.
    split; [intros l L; rewrite P3 in L; now apply Hc|]. apply (tally_trans nn 0 0 w w1 w2 T P1).
  - eapply wp_mono; [apply (tally_fetch E m nn); [exact Hl|exact Hc]| |auto]. intros x w2 K Hx. destruct (K Hx) as (K1 & K2 & _ & K4 & _). rewrite K4, Er. auto.
Qed.

Section Count.
Variables (E : env) (f : bytes) (n nn tino iino : nat) (w1 : world).
Definition QInv (i : nat) (last : N) (sq : mstate * N) (w2 : world) : Prop :=
  w_files w2 iino = f /\ t_ino (m_target (fst sq)) = tino /\ last = ent_start f i /\ has_chain nn (fst sq) /\ exists k, tally nn k w1 w2 /\ snd sq = N.of_nat k mod M32.
Lemma QInv_io i last sq w ev : QInv i last sq w -> QInv i last sq (set_io ev w). Proof. intros H. exact H. Qed.
Lemma count_entry m i sq w : 0 < ent_size f i -> iino <> tino -> QInv i (ent_start f i) sq w ->
  wp (entry_q E m (ent_start f i) (ent_size f i) (ent_id f i) sq) (fun r w' => if fst r then QInv (S i) (ent_end f i) (snd r) w' else True) (fun _ _ => True) w.
Proof.
  intros Hpos Hne (I1 & I2 & _ & I4 & k & I5 & I6). destruct sq as [st q]. cbn [fst snd] in *.
  pose proof (entry_tally E m nn (ent_start f i) (ent_size f i) (ent_id f i) st w Hpos I4) as A.
  pose proof (step_entry E tino m (ent_start f i) (ent_size f i) (ent_id f i) st I2 w) as Q. unfold wp in *. rewrite entry_q_eq.
  destruct (entry_cb E m (ent_start f i) (ent_size f i) (ent_id f i) st w) as [[[ok st']| | |] w']; cbn [with_q fst snd] in *; auto. destruct ok; [|exact I].
  destruct Q as ((Q & _) & Qs). destruct (A eq_refl) as (A1 & A2). split; [rewrite Q by congruence; exact I1|]. split; [exact Qs|]. split; [reflexivity|]. split; [exact A1|].
  exists (k + if m_resuming st' then 0 else if same_last (ent_id f i) st then 0 else 1)%nat. split; [eapply tally_trans; eassumption|]. cbn [fst snd].
  unfold entry_next, next_q. destruct (m_resuming st'); [now rewrite Nat.add_0_r|]. destruct (same_last (ent_id f i) st); [now rewrite Nat.add_0_r|].
  rewrite I6, N.add_mod_idemp_l by (unfold M32; discriminate). f_equal. lia.
Qed.
End Count.

Lemma queries_counted E b argv w w' c q : sane E argv w -> good_index E argv w -> (b = true -> hash_reliable E w) ->
  (forall iino p n i, e_open E (cmd_index argv) = Some iino -> valid_index (w_files w iino) p n -> (i < N.to_nat n)%nat -> 0 < ent_size (w_files w iino) i) ->
  main_q E argv w = (Ok (c, Some q), w') ->
  c = 0 /\ exists tr, run_trace w w' tr /\ q = all_delivered (length (cmd_stores argv)) tr mod 2 ^ 32 /\
    exists iino tino p n k, e_open E (cmd_index argv) = Some iino /\ e_open_rw E (cmd_target argv) = Some tino /\ valid_index (w_files w iino) p n /\ (k <= N.to_nat n)%nat /\
      (forall j, (j < k)%nat -> SpecMain.holds E b (w_files w iino) j (w_files w tino)) /\ q = N.of_nat (n_to_fetch (w_files w iino) k (N.to_nat n)) mod 2 ^ 32.
Proof.
  intros HS HG Hb Hpos HM. unfold main_q in HM. cbv zeta in HM. unfold bind at 1 in HM.
  match type of HM with context [match ?m w with _ => _ end] => change (m w) with (init E argv w) in HM end.
  destruct (init E argv w) as [[[su| |c0]| | |] w1] eqn:Hinit; try discriminate.
  unfold run_q, bind in HM. destruct (caibx_iterate_entries (entry_q E (su_n su)) (su_index su) (su_params su) (su_n su) (initial_mstate su, 0) w1) as [[[ok [st q']]| | |] w2] eqn:Hrun; try discriminate.
  destruct ok; cbn [negb] in HM; [|discriminate]. destruct (m_store st) as [chain|]; [|discriminate]. destruct (store_chain_free chain w2) as [[u| | |] w3] eqn:Hfree; try discriminate.
  injection HM as <- -> ->. split; [reflexivity|].
  pose proof (wp_init E b argv w HS Hb) as H. unfold wp in H. rewrite Hinit in H. destruct H as (wk & Hst & _ & HR).
  pose proof (ready_files _ _ _ _ _ _ _ Hst HR) as Hfil. pose proof HR as HR0.
  destruct HR as [R1 R2 R3 R4 R5 R6 R7 (l & R8 & R9 & R10)].
  assert (Hpos' : forall i, (i < N.to_nat (su_n su))%nat -> 0 < ent_size (w_files w (su_index su)) i) by (intros i; eapply Hpos; eauto).
  assert (Hold : caibx_iterate_entries (entry_cb E (su_n su)) (su_index su) (su_params su) (su_n su) (initial_mstate su) w1 = (Ok (true, st), w2)).
  { unfold caibx_iterate_entries in *.
    pose proof (iterate_erase (entry_cb E (su_n su)) (entry_q E (su_n su)) (su_index su) (su_params su) (su_n su) (entry_erase E (su_n su)) (N.to_nat (su_n su)) 0 0 (initial_mstate su, 0) w1) as X.
    rewrite Hrun in X. cbn [with_q fst snd] in X. symmetry. exact X. }
  destruct (summary_run E b argv w su w1 st w2 HS HG Hb Hpos' Hinit Hold) as (k & tr & K1 & K2 & K3 & K4 & K5).
  set (f := w_files w (su_index su)) in *. set (n := N.to_nat (su_n su)) in *. set (tino := t_ino (su_target su)) in *. set (nn := length (cmd_stores argv)) in *.
  assert (Hn : su_n su = N.of_nat n) by (unfold n; lia). destruct HS as [HE Hsv Hes Hf Hargs Hhelp Hix Hal Hd].
  assert (Hne : su_index su <> tino) by (intros Heq; apply (Hix tino R3); rewrite R2; congruence).
  assert (Hlen : (64 + 40 * n <= length f)%nat) by (eapply valid_length; eauto). destruct (Hf (su_index su)) as (Hok & Hlim). fold f in Hok, Hlim.
  assert (Hwf : well_formed f n) by (eapply HG; eauto).
  assert (Hl : length l = nn) by (unfold nn; clear - R10; induction R10; cbn; congruence).
  assert (W : wp (caibx_iterate_entries (entry_q E (N.of_nat n)) (su_index su) (su_params su) (N.of_nat n) (initial_mstate su, 0))
    (fun r w' => if fst r then exists last', QInv f nn tino (su_index su) w1 n last' (snd r) w' else True) (fun _ _ => True) w1).
  { apply (iterate_rule (entry_q E (N.of_nat n)) (su_index su) (su_params su) f n Hok Hlen Hlim (QInv f nn tino (su_index su) w1) (fun _ _ => True) (fun _ _ => True)); auto.
    - intros i last a w4 HI. apply HI.
    - intros i last a w4 ev Hi HI _ _. pose proof HI as (_ & _ & -> & _). rewrite (not_skipped _ _ tino (su_index su)) by auto.
      rewrite (ent_len_size f n tino (su_index su)) by auto. destruct (Hwf i Hi) as (_ & B & _). rewrite N.mod_small by exact B. apply count_entry; [apply Hpos', Hi|exact Hne|exact HI].
    - split; [apply Hfil|]. split; [reflexivity|]. split; [reflexivity|]. split; [intros l' Hl'; cbn in Hl'; congruence|]. exists 0%nat. split; [apply tally_refl|reflexivity]. }
  rewrite Hn in Hrun. unfold wp in W. rewrite Hrun in W. cbn [fst snd] in W. destruct W as (last & _ & _ & _ & _ & k' & (tr' & T1 & T2 & T3) & T4). cbn [snd] in T4.
  assert (tr' = tr) as -> by (apply (app_inv_tail (w_trace w1)); congruence).
  assert (Ea : all_delivered nn tr = N.of_nat k') by (rewrite all_delivered_answers, T2 by exact T3; reflexivity).
  (* the set-up and the end give no answers *)
  destruct (rd_quiet _ _ _ _ _ _ _ HR0) as (_ & _ & _ & _ & tr0 & S1 & S2). destruct Hst as (kc & ->). cbn [w_trace set_kcapi] in S1.
  pose proof (frame_chain_free none no_answer chain w2) as (_ & _ & _ & _ & tr3 & S3 & S4). rewrite Hfree in S3. cbn [snd] in S3.
  exists (tr3 ++ tr ++ tr0). split; [unfold run_trace; rewrite S3, K4, S1, <- !app_assoc; reflexivity|].
  assert (Z : forall t, Forall no_answer t -> answers t = 0%nat /\ Forall (in_chain nn) t).
  { intros t Ht. split; [now apply answers_none|]. eapply Forall_impl; [|exact Ht]. intros [] X; cbn in *; tauto. }
  destruct (Z _ S4) as (Z1 & Z2). destruct (Z tr0) as (Z3 & Z4); [eapply Forall_impl; [|exact S2]; intros [] X; cbn in *; tauto|].
  change (2 ^ 32) with M32. split.
  - rewrite all_delivered_answers by (repeat (apply Forall_app; split); assumption). rewrite T4. f_equal. f_equal. unfold answers in *. rewrite !filter_app, !app_length. lia.
  - exists (su_index su), tino, (su_params su), (su_n su), k. repeat (split; [assumption|]). rewrite T4. f_equal. fold n f. congruence.
Qed.

(** ** What is printed *)
Lemma queries_printf q : printf (bs "%u queries received by %s") [AInt q; AStr (bs "chain0")] = Some (queries_text q).
Proof.
  unfold printf, queries_text. change (bs "%u queries received by %s") with ([37; 117] ++ bs " queries received by " ++ [37; 115] ++ []).
  rewrite render_u, render_text by (apply free_bs; reflexivity). rewrite render_s. cbn [render option_map]. reflexivity.
Qed.
Lemma queries_in s : In s queries_sites -> In s sites /\ s_fmt s = bs "%u queries received by %s" /\ s_file s = bs "store.c" /\ s_level s = U_LOG_INFO.
Proof. intros [<-|[<-|[]]]; repeat split; apply mem_site_in; vm_compute; reflexivity. Qed.
Lemma queries_fmt : bs "%u queries received by %s" <> long_fmt. Proof. vm_compute. discriminate. Qed.
Lemma queries_complete s tty loglevel path q : In s queries_sites -> is_basename path (bs "store.c") -> U_LOG_INFO <= loglevel ->
  queries_line s tty loglevel path q = Some (full_message s tty (queries_text q)).
Proof.
  intros Hs Hb Hl. destruct (queries_in s Hs) as (Hin & Hf & Hn & Hv). apply site_complete; auto.
  - rewrite Hf. exact queries_fmt.
  - now rewrite Hn.
  - now rewrite Hv.
  - rewrite Hf. apply queries_printf.
Qed.
(** A run that succeeds prints the number. *)
Definition exits1 (r : init_res) : Prop := match r with InitExit c => c = 1 | _ => True end.
Lemma csn_exits E argv : gives exits1 (csn E argv).
Proof.
  unfold csn. destruct argv as [|a0 [|a1 [|a2 [|a3 args]]]]; try (apply gives_ret; exact I). skip_bind. destruct (negb _); [now apply gives_ret|].
  destruct (e_open E a1) as [ino|]; [|now apply gives_ret]. skip_bind. destruct a4 as [[cp n]|]; [|now apply gives_ret].
  skip_bind. destruct a4 as [t|]; [|now apply gives_ret]. skip_bind. destruct a4 as [sp|]; [|now apply gives_ret]. skip_bind. destruct a4; now apply gives_ret.
Qed.
Lemma casync_exits E argv : gives exits1 (casync E argv).
Proof.
  unfold casync. cbv zeta. destruct (Nat.ltb (length argv) 3); [now apply gives_ret|]. destruct (e_open E _) as [ino|]; [|now apply gives_ret].
  skip_bind. destruct a as [[cp n]|]; [|now apply gives_ret]. skip_bind. destruct a as [t|]; [|now apply gives_ret]. skip_bind. destruct a as [sp|]; [|now apply gives_ret].
  destruct (getopt_all (skipn 1 argv)) as [os ns]. skip_bind. destruct a; try (now apply gives_ret). destruct (_ || _); now apply gives_ret.
Qed.
Lemma success_printed E argv w w' : main E argv w = (Ok 0, w') -> exists q, main_q E argv w = (Ok (0, Some q), w').
Proof.
  intros H. rewrite <- main_erase in H. unfold main_q in *. cbv zeta in *. unfold bind at 1 in H. unfold bind at 1.
  match type of H with context [match ?m w with _ => _ end] => assert (G : match m w with (Ok r, _) => exits1 r | _ => True end) end.
  { destruct (beq _ _); [apply csn_exits|]. destruct (beq _ _); [apply casync_exits|reflexivity]. }
  match type of H with context [match ?m w with _ => _ end] => destruct (m w) as [[[su| |c]| | |] w1] end; try discriminate.
  2:{ cbn in G. subst c. discriminate. }
  unfold run_q, bind in *. destruct (caibx_iterate_entries (entry_q E (su_n su)) (su_index su) (su_params su) (su_n su) (initial_mstate su, 0) w1) as [[[ok [st q]]| | |] w2]; try discriminate.
  destruct (negb ok); [discriminate|]. destruct (m_store st); [|discriminate]. destruct (store_chain_free l w2) as [[u| | |] w3]; try discriminate. cbn in H. injection H as <-. exists q. reflexivity.
Qed.
