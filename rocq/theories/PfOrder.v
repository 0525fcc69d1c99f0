(** Requests are made in order, failed stores are not asked again, repeated chunks are fetched once. *)
From Verif Require Import Base Lib Utils Sha Chunker Caibx Index StoreLocal Target StoreHttp Chain Ui MainProg
  SpecBasic SpecEnv SpecChunker SpecStore SpecHttp SpecCaibx SpecMain SpecRun SpecOrder
  PfUtils PfBasic PfIO PfFrame PfLocal PfChain PfSetup PfRun PfReadonly.
Local Open Scope N_scope.

Section Scan.
Variables (S : Type) (step : S -> tev -> option S).
Lemma scan_app a b s : scan step s (a ++ b) = match scan step s a with Some s' => scan step s' b | None => None end.
Proof. revert s. induction a as [|ev a IH]; intros s; cbn [app scan]; [reflexivity|]. destruct (step s ev); auto. Qed.
(** [w] is reached from [w0], having brought the checker from [s0] to [s]. *)
Definition at_state (w0 : world) (s0 : S) (w : world) (s : S) : Prop := exists tr, w_trace w = tr ++ w_trace w0 /\ scan step s0 (rev tr) = Some s.
Lemma at_start w s : at_state w s w s. Proof. exists []. auto. Qed.
Lemma at_trans w0 s0 w1 s1 w2 s2 : at_state w0 s0 w1 s1 -> at_state w1 s1 w2 s2 -> at_state w0 s0 w2 s2.
Proof. intros (a & A & B) (c & C & D). exists (c ++ a). split; [now rewrite C, A, app_assoc|]. now rewrite rev_app_distr, scan_app, B. Qed.
Lemma at_event w ev s s' : step s ev = Some s' -> at_state w s (add_trace ev w) s'.
Proof. intros H. exists [ev]. split; [reflexivity|]. cbn. now rewrite H. Qed.
Lemma scan_neutral tr s : Forall (fun ev => step s ev = Some s) tr -> scan step s tr = Some s.
Proof. induction 1 as [|ev tr H _ IH]; [reflexivity|]. cbn [scan]. now rewrite H. Qed.
Lemma at_quiet S0 (P : tev -> Prop) w w' s : (forall ev, P ev -> step s ev = Some s) -> quiet S0 P w w' -> at_state w s w' s.
Proof.
  intros H (_ & _ & _ & _ & tr & A & B). exists tr. split; [exact A|]. apply scan_neutral, Forall_rev. eapply Forall_impl; [|exact B]. exact H.
Qed.
Lemma at_accepted w s w' s' : at_state w s w' s' -> accepted step s w w'.
Proof. intros (tr & A & B). exists tr, s'. auto. Qed.
End Scan.
Arguments at_state {S}. Arguments at_start {S}. Arguments at_trans {S}. Arguments at_event {S}. Arguments at_quiet {S}. Arguments at_accepted {S}.

Lemma find_seq_some (f : nat -> bool) a k i : (a <= i < a + k)%nat -> f i = true -> (forall j, (a <= j < i)%nat -> f j = false) -> find f (seq a k) = Some i.
Proof.
  revert a. induction k as [|k IH]; intros a Hi Hf Hd; [lia|]. cbn [seq find]. destruct (Nat.eq_dec a i) as [->|Hne]; [now rewrite Hf|].
  rewrite Hd by lia. apply IH; auto; [lia|]. intros j Hj. apply Hd. lia.
Qed.
Lemma find_seq_none (f : nat -> bool) a k : (forall j, (a <= j < a + k)%nat -> f j = false) -> find f (seq a k) = None.
Proof.
  revert a. induction k as [|k IH]; intros a Hd; [reflexivity|]. cbn [seq find]. rewrite Hd by lia. apply IH. intros j Hj. apply Hd. lia.
Qed.

(** ** C08 *)
Section Order.
Variables (E : env) (n : nat).
Notation ost := (list nat * phase)%type.
Notation at_o := (at_state (order_step n)).

Definition matches (l : list substore) (failed : list nat) : Prop := length l = n /\ forall p ss, nth_error l p = Some ss -> ss_active ss = alive failed p.
(** No request is going on. *)
Definition fresh (s : ost) : Prop := match s with (failed, Between lo _) => lo = O \/ forall j, (lo <= j < n)%nat -> alive failed j = false | _ => False end.
(** The stores before [i] need not be asked (again) for [id]. *)
Definition upto (i : nat) (id : bytes) (s : ost) : Prop :=
  (fresh s /\ forall j, (j < i)%nat -> alive (fst s) j = false) \/
  match s with (failed, Between lo cur) => cur = id /\ (lo <= i)%nat /\ forall j, (lo <= j < i)%nat -> alive failed j = false | _ => False end.

Lemma upto_query i id s : upto i id s -> (i < n)%nat -> alive (fst s) i = true -> order_step n s (TQuery i id) = Some (fst s, Asking i id).
Proof.
  intros H Hi Ha. destruct s as [failed ph]. cbn [fst] in Ha. assert (Ei : Nat.eqb i i = true) by apply Nat.eqb_refl.
  destruct ph as [lo cur|j c]; [|destruct H as [(H & _)|H]; destruct H]. cbn [order_step fst]. destruct H as [(H & Hd)|(-> & Hl & Hd)].
  - cbn [fst] in Hd. destruct H as [->|H].
    + rewrite (find_seq_some _ 0 (n - 0) i); auto; [|lia|intros; apply Hd; lia]. now rewrite Ei.
    + rewrite (find_seq_none _ lo (n - lo)) by (intros; apply H; lia). rewrite (find_seq_some _ 0 n i); auto; [|lia|intros; apply Hd; lia]. now rewrite Ei.
  - rewrite (find_seq_some _ lo (n - lo) i); auto; [|lia]. rewrite Ei, beq_refl, orb_true_r. reflexivity.
Qed.
Lemma upto_dead i id s : upto i id s -> alive (fst s) i = false -> upto (S i) id s.
Proof.
  intros [(H & Hd)|H] Ha.
  - left. split; [exact H|]. intros j Hj. destruct (Nat.eq_dec j i) as [->|]; [exact Ha|apply Hd; lia].
  - right. destruct s as [failed [lo cur|]]; [|exact H]. destruct H as (A & B & C). split; [exact A|]. split; [lia|]. intros j Hj. destruct (Nat.eq_dec j i) as [->|]; [exact Ha|apply C; lia].
Qed.
Lemma upto_end id s : upto n id s -> fresh s.
Proof. intros [(H & _)|H]; [exact H|]. destruct s as [failed [lo cur|]]; [|exact H]. destruct H as (A & B & C). right. exact C. Qed.
Lemma fresh_upto id s : fresh s -> upto 0 id s.
Proof. intros H. left. split; [exact H|]. intros; lia. Qed.

Lemma alive_cons f i j : j <> i -> alive (i :: f) j = alive f j.
Proof. intros H. unfold alive. cbn. apply Nat.eqb_neq in H. now rewrite H. Qed.
Lemma alive_cons_same f i : alive (i :: f) i = false.
Proof. unfold alive. cbn. now rewrite Nat.eqb_refl. Qed.
Lemma neutral_store s ev : store_ev ev -> order_step n s ev = Some s.
Proof. destruct s as [f [|]]; destruct ev; cbn; tauto. Qed.

Lemma order_chain id : forall l pre i t out w s, length pre = i -> matches (pre ++ l) (fst s) -> upto i id s ->
  wp (chain_loop E i l t id out) (fun x w' => exists s', at_o w s w' s' /\ fresh s' /\ matches (pre ++ snd (fst x)) (fst s'))
     (fun _ w' => exists s', at_o w s w' s') w.
Proof.
  induction l as [|ss l IH]; intros pre i t out w s Hpre Hm Hu; cbn [chain_loop].
  - apply wp_ret. cbn [fst snd]. exists s. split; [apply at_start|]. split; [|exact Hm]. destruct Hm as (L & _). rewrite app_length in L. cbn in L.
    replace i with n in Hu by lia. eapply upto_end; eauto.
  - assert (Hn : nth_error (pre ++ ss :: l) i = Some ss) by (rewrite nth_error_app2, Hpre, Nat.sub_diag by lia; reflexivity).
    assert (Hi : (i < n)%nat) by (destruct Hm as (L & _); rewrite app_length in L; cbn in L; lia).
    pose proof (proj2 Hm i ss Hn) as Ha. destruct (ss_active ss) eqn:Es; cbn [negb].
    2:{ apply wp_bind. eapply wp_mono; [apply (IH (pre ++ [ss]) (S i) t out w s)| |auto].
        - rewrite app_length; cbn; lia.
        - rewrite <- app_assoc. exact Hm.
        - apply upto_dead; auto.
        - intros [[[r out'] l'] t'] w' (s' & A & B & C). apply wp_ret. exists s'. split; [exact A|]. split; [exact B|]. cbn [fst snd] in *. rewrite <- app_assoc in C. exact C. }
    apply wp_bind, wp_trace, wp_bind. set (w1 := add_trace _ w).
    assert (A1 : at_o w s w1 (fst s, Asking i id)) by (apply at_event, upto_query; auto).
    apply (wp_frame none store_ev); [apply frame_store_get; intros; exact I|]. unfold wp at 1.
    destruct (store_get_chunk E (ss_store ss) t id out w1) as [[[[[r out'] s0] t']| | |] w2].
    2,3,4: intros Q; exists (fst s, Asking i id); eapply at_trans; [exact A1|eapply at_quiet; [|exact Q]; intros; now apply neutral_store].
    intros Q. assert (A2 : at_o w s w2 (fst s, Asking i id)) by (eapply at_trans; [exact A1|eapply at_quiet; [|exact Q]; intros; now apply neutral_store]).
    apply wp_bind, wp_trace. set (w3 := add_trace _ w2).
    set (s3 := (match r with None => i :: fst s | Some _ => fst s end, Between (if has_data r then O else S i) id)).
    assert (A3 : at_o w s w3 s3) by (eapply at_trans; [exact A2|]; apply at_event; cbn; now rewrite Nat.eqb_refl).
    assert (Hm3 : forall a, a = match r with None => false | Some _ => true end -> matches (pre ++ mkSub s0 a :: l) (fst s3)).
    { intros a Hae. destruct Hm as (L & Hm). split; [rewrite app_length in *; exact L|]. intros p ss' Hp. unfold s3. cbn [fst].
      destruct (Nat.eq_dec p i) as [->|Hne].
      - rewrite nth_error_app2, Hpre, Nat.sub_diag in Hp by lia. cbn in Hp. injection Hp as <-. cbn [ss_active]. subst a. destruct r; [congruence|now rewrite alive_cons_same].
      - assert (Hp' : nth_error (pre ++ ss :: l) p = Some ss').
        { destruct (Nat.lt_ge_cases p i) as [Hlt|Hge]; [rewrite nth_error_app1 in * by lia; exact Hp|]. rewrite nth_error_app2 in * by lia.
          destruct (p - length pre)%nat as [|d] eqn:Ed; [lia|]. exact Hp. }
        rewrite (Hm _ _ Hp'). destruct r; [reflexivity|now rewrite alive_cons]. }
    assert (Cont : has_data r = false -> forall a, a = match r with None => false | Some _ => true end -> wp (bind (chain_loop E (S i) l t' id out') (fun '(r, out, l', t) => ret (r, out, mkSub s0 a :: l', t)))
         (fun x w' => exists s', at_o w s w' s' /\ fresh s' /\ matches (pre ++ snd (fst x)) (fst s')) (fun _ w' => exists s', at_o w s w' s') w3).
    { intros Hd a Hae. apply wp_bind. eapply wp_mono; [apply (IH (pre ++ [mkSub s0 a]) (S i) t' out' w3 s3)| |].
      - rewrite app_length; cbn; lia.
      - rewrite <- app_assoc. now apply Hm3.
      - right. unfold s3. rewrite Hd. split; [reflexivity|]. split; [lia|]. intros; lia.
      - intros [[[r2 out2] l2] t2] w' (s' & B1 & B2 & B3). apply wp_ret. exists s'. split; [eapply at_trans; eauto|]. split; [exact B2|]. cbn [fst snd] in *. rewrite <- app_assoc in B3. exact B3.
      - intros bd w' (s' & B1). exists s'. eapply at_trans; eauto. }
    destruct r as [k|]; [destruct (0 <? k) eqn:Ek|].
    + apply wp_ret. exists s3. split; [exact A3|]. split; [|cbn [fst snd]; now apply Hm3]. unfold s3. cbn [has_data]. rewrite Ek. now left.
    + apply Cont; auto.
    + apply Cont; auto.
Qed.

(** The synchroniser *)
Definition ochain (st : mstate) (s : ost) : Prop := match m_store st with Some l => fresh s /\ matches l (fst s) | None => True end.
Definition ostep {A} (st : mstate) (m : M (A * mstate)) : Prop := forall w s, ochain st s ->
  wp m (fun r w' => exists s', at_o w s w' s' /\ ochain (snd r) s') (fun _ w' => exists s', at_o w s w' s') w.
Definition neutral (ev : tev) : Prop := match ev with TQuery _ _ | TAnswer _ _ => False | _ => True end.
Lemma neutral_step s ev : neutral ev -> order_step n s ev = Some s.
Proof. destruct s as [f [|]]; destruct ev; cbn; tauto. Qed.
Lemma ostep_ret A st (r : A * mstate) : m_store (snd r) = m_store st -> ostep st (ret r).
Proof. intros H w s Hs. apply wp_ret. exists s. split; [apply at_start|]. unfold ochain. now rewrite H. Qed.
Lemma ostep_quiet A B st (m : M A) (k : A -> M (B * mstate)) (S0 : nat -> Prop) : frame S0 neutral m -> (forall a, ostep st (k a)) -> ostep st (bind m k).
Proof.
  intros F Hk w s Hs. apply wp_bind. apply (wp_frame S0 neutral); [exact F|]. apply wp_any.
  - intros a w1 Q. eapply wp_mono; [apply (Hk a w1 s Hs)| |].
    + intros r w2 (s' & A1 & A2). exists s'. split; [|exact A2]. eapply at_trans; [eapply at_quiet; [|exact Q]; intros; now apply neutral_step|exact A1].
    + intros bd w2 (s' & A1). exists s'. eapply at_trans; [eapply at_quiet; [|exact Q]; intros; now apply neutral_step|exact A1].
  - intros bd w1 Q. exists s. eapply at_quiet; [|exact Q]. intros; now apply neutral_step.
Qed.
Lemma ostep_seq A B st (m : M (A * mstate)) (k : A * mstate -> M (B * mstate)) : ostep st m -> (forall a, ostep (snd a) (k a)) -> ostep st (bind m k).
Proof.
  intros Hm Hk w s Hs. apply wp_bind. eapply wp_mono; [apply Hm, Hs| |auto]. intros a w1 (s1 & A1 & A2).
  eapply wp_mono; [apply (Hk a w1 s1 A2)| |].
  - intros r w2 (s' & B1 & B2). exists s'. split; [eapply at_trans; eauto|exact B2].
  - intros bd w2 (s' & B1). exists s'. eapply at_trans; eauto.
Qed.
Lemma ostep_store A st st' (m : M (A * mstate)) : m_store st' = m_store st -> ostep st' m -> ostep st m.
Proof. intros H Hm w s Hs. apply Hm. unfold ochain. now rewrite H. Qed.

Lemma ostep_progress k st : ostep st (entry_progress E k st).
Proof.
  unfold entry_progress. destruct (e_interactive E); [|now apply ostep_ret]. apply (ostep_quiet _ _ _ _ _ none).
  - apply frame_trace. exact I.
  - intros _. now apply ostep_ret.
Qed.
Lemma ostep_fetch k o l id st : ostep st (entry_fetch_write E k o l id st).
Proof.
  unfold entry_fetch_write. apply ostep_seq.
  - destruct (match m_last_id st with Some _ => _ | None => false end); [now apply ostep_ret|].
    destruct (m_store st) as [chain|] eqn:Es; [|intros w s _; apply wp_ub; exists s; apply at_start].
    intros w s Hs. unfold ochain in Hs. rewrite Es in Hs. destruct Hs as (Hf & Hm). apply wp_bind.
    eapply wp_mono; [apply (order_chain id chain [] 0 (m_target st) (m_buf st) w s eq_refl Hm (fresh_upto id s Hf))| |auto].
    intros [[[r buf] ch] t] w' (s' & A & B & C). cbn [fst snd app] in C.
    destruct (match r with Some _ => _ | None => false end); apply wp_ret; exists s'; (split; [exact A|]); unfold ochain; cbn; auto.
  - intros [ok st1]. cbn [snd]. destruct (negb ok); [now apply ostep_ret|].
    apply (ostep_quiet _ _ _ _ _ (eq (t_ino (m_target st1)))).
    + apply frame_target_write; auto; intros; exact I.
    + intros [ok2 t]. destruct (negb ok2); [now apply ostep_ret|].
      eapply ostep_store; [|apply ostep_progress]. reflexivity.
Qed.
Lemma ostep_entry k o l id st : ostep st (entry_cb E k o l id st).
Proof.
  unfold entry_cb. destruct (m_resuming st); [|apply ostep_fetch]. destruct (_ <? _); [now apply ostep_ret|].
  apply (ostep_quiet _ _ _ _ _ none); [apply frame_check_chunk|]. intros [[r buf] t].
  destruct r as [[|]|]; (eapply ostep_store; [|first [apply ostep_progress|apply ostep_fetch]]); reflexivity.
Qed.
Lemma ostep_iterate (cb : N -> N -> bytes -> mstate -> M (bool * mstate)) ino p nn : (forall o l i a, ostep a (cb o l i a)) ->
  forall k i last a, ostep a (iterate_loop cb ino p nn k i last a).
Proof.
  intros Hcb. induction k as [|k IH]; intros i last a; cbn [iterate_loop]; [now apply ostep_ret|].
  apply (ostep_quiet _ _ _ _ _ none); [apply frame_readall|]. intros [ok d]. destruct (negb ok); [now apply ostep_ret|]. cbv zeta.
  destruct (_ && _); [apply IH|]. apply ostep_seq; [apply Hcb|]. intros [ok2 a2]. cbn [snd]. destruct (negb ok2); [now apply ostep_ret|]. apply IH.
Qed.
Lemma order_run su w : match su_store su with Some l => length l = n /\ Forall (fun ss => ss_active ss = true) l | None => True end ->
  in_order n w (snd (run_sync E su w)).
Proof.
  intros Hst. apply (wp_final _ (run_sync E su) (fun w' => in_order n w w')). unfold run_sync. apply wp_bind.
  assert (H0 : ochain (initial_mstate su) ([], Between 0 [])).
  { unfold ochain, initial_mstate. cbn [m_store]. destruct (su_store su) as [l|]; [|exact I]. destruct Hst as (L & F). split; [now left|]. split; [exact L|].
    intros q ss Hq. rewrite Forall_forall in F. rewrite (F ss); [reflexivity|]. eapply nth_error_In; eauto. }
  eapply wp_mono; [apply (ostep_iterate (entry_cb E (su_n su))); [intros; apply ostep_entry|exact H0]| |].
  2:{ intros bd w1 (s' & A). eapply at_accepted; eauto. }
  intros [ok st] w1 (s' & A & _). assert (K : in_order n w w1) by (eapply at_accepted; eauto).
  destruct (negb ok); [apply wp_ret; exact K|]. destruct (m_store st); [|apply wp_ub; exact K].
  apply (wp_frame none never); [apply frame_bind; [apply frame_chain_free|intros; apply frame_ret]|].
  assert (K2 : forall w2, quiet none never w1 w2 -> in_order n w w2).
  { intros w2 Q. eapply at_accepted. eapply at_trans; [exact A|]. eapply at_quiet; [|exact Q]. intros ev []. }
  apply wp_bind. apply wp_any; [|intros bd w2; apply K2]. intros _ w2. apply wp_ret. apply K2.
Qed.
End Order.

(** ** The stores of a run *)
Definition added_store (E : env) (tp : bytes) (cp : params) (arg : bytes) (ss : substore) : Prop := store_for E cp (classify_arg tp arg) ss.
Lemma gives_app E tp cp n b a : gives (fun r => match r with Some b' => exists ss, b_chain b' = b_chain b ++ [ss] /\ added_store E tp cp a ss | None => True end)
  (append_store_from_arg E tp cp n b a).
Proof.
  unfold append_store_from_arg. eapply gives_bind with (J := fun r => match r with Some (s, t) => added_store E tp cp a (mkSub s true) | None => True end).
  - unfold added_store. destruct (classify_arg tp a) as [|url|path ip].
    + skip_bind. destruct a0 as [ok t]. apply gives_ret. destruct ok; [split; [reflexivity|exact I]|exact I].
    + intros w. unfold bind. destruct (store_http_new E url w) as [[[hs|]| | |] w'] eqn:Eh; cbn; auto. split; [reflexivity|]. cbn. eauto.
    + intros w. unfold bind. destruct (store_local_new E path ip cp w) as [[[ls|]| | |] w'] eqn:Eh; cbn; auto. split; [reflexivity|]. cbn. eauto.
  - intros [[s t]|] H; [|now apply gives_ret]. unfold store_chain_append. 
    eapply gives_bind with (J := fun r => fst (fst r) = true -> snd r = b_chain b ++ [mkSub s true]).
    + skip_bind. destruct (negb a0); [now apply gives_ret|]. cbv zeta.
      match goal with |- context [if ?c then ub else _] => destruct c end; [apply gives_ub|now apply gives_ret].
    + intros [[ok sp] ch] H2. apply gives_ret. destruct ok; [|exact I]. cbn in *. eauto.
Qed.
Definition chain_for (E : env) (tp : bytes) (cp : params) (args : list bytes) (b b' : building) : Prop :=
  exists l, b_chain b' = b_chain b ++ l /\ Forall2 (added_store E tp cp) args l.
Lemma chain_for_cons E tp cp a args b b1 b2 ss : b_chain b1 = b_chain b ++ [ss] -> added_store E tp cp a ss -> chain_for E tp cp args b1 b2 -> chain_for E tp cp (a :: args) b b2.
Proof. intros H1 H2 (l & H3 & H4). exists (ss :: l). split; [now rewrite H3, H1, <- app_assoc|]. now constructor. Qed.
Lemma gives_apps E tp cp n : forall args b, gives (fun r => match r with Some b' => chain_for E tp cp args b b' | None => True end)
  (append_stores E tp cp n b args).
Proof.
  induction args as [|a args IH]; intros b; cbn [append_stores].
  { apply gives_ret. exists []. split; [now rewrite app_nil_r|constructor]. }
  eapply gives_bind; [apply gives_app|]. intros [b'|] H; [|now apply gives_ret]. destruct H as (ss & H1 & H2).
  intros w. specialize (IH b' w). destruct (append_stores E tp cp n b' args w) as [[[b2|]| | |] w']; auto. eapply chain_for_cons; eauto.
Qed.
Lemma gives_os E tp cp n : forall os b, gives (fun r => match r with OptsDone b' => chain_for E tp cp (store_opts os) b b' | _ => True end)
  (casync_opts E tp cp n b os).
Proof.
  induction os as [|o os IH]; intros b; cbn [casync_opts].
  { apply gives_ret. exists []. split; [now rewrite app_nil_r|constructor]. }
  destruct o; try (now apply gives_ret); [|apply IH]. eapply gives_bind; [apply gives_app|]. intros [b'|] H; [|now apply gives_ret]. destruct H as (ss & H1 & H2).
  intros w. specialize (IH b' w). destruct (casync_opts E tp cp n b' os w) as [[[b2|b2| |]| | |] w']; auto. unfold store_opts. cbn [flat_map app]. eapply chain_for_cons; eauto.
Qed.
Lemma gives_init E argv : gives (fun r => match r with InitOk su => match su_store su with
    | Some l => Forall2 (added_store E (cmd_target argv) (su_params su)) (cmd_stores argv) l | None => True end | _ => True end) (init E argv).
Proof.
  unfold init, cmd_target, cmd_stores, is_csn. destruct (beq (basename (nth 0 argv [])) (bs "csn")).
  - unfold csn. destruct argv as [|a0 [|a1 [|a2 [|a3 args]]]]; try now apply gives_ret. skip_bind. destruct (negb a); [now apply gives_ret|].
    destruct (e_open E a1) as [ino|]; [|now apply gives_ret]. skip_bind. destruct a4 as [[cp n]|]; [|now apply gives_ret].
    skip_bind. destruct a4 as [t|]; [|now apply gives_ret]. skip_bind. destruct a4 as [sp|]; [|now apply gives_ret].
    eapply gives_bind; [apply gives_apps|]. intros [bd|] Hb; [|now apply gives_ret]. apply gives_ret. cbn. destruct Hb as (l & -> & Hb). exact Hb.
  - destruct (beq _ _); [|now apply gives_ret]. unfold casync. cbv zeta. destruct (Nat.ltb _ 3); [now apply gives_ret|]. destruct (e_open E _) as [ino|]; [|now apply gives_ret].
    skip_bind. destruct a as [[cp n]|]; [|now apply gives_ret]. skip_bind. destruct a as [t|]; [|now apply gives_ret]. skip_bind. destruct a as [sp|]; [|now apply gives_ret].
    destruct (getopt_all (skipn 1 argv)) as [os ns]. cbn [fst]. eapply gives_bind; [apply gives_os|]. intros [bd|bd| |] Hb; try now apply gives_ret.
    destruct (_ || _); apply gives_ret; [exact I|]. cbn. destruct Hb as (l & -> & Hb). exact Hb.
Qed.

Lemma Forall2_active E tp cp args l : Forall2 (added_store E tp cp) args l -> length l = length args /\ Forall (fun ss => ss_active ss = true) l.
Proof. induction 1 as [|a ss args l H _ (IH1 & IH2)]; cbn; [auto|]. split; [now f_equal|]. constructor; [apply H|exact IH2]. Qed.

(** Every stop of every run. *)
Lemma main_in_order E argv w : in_order (length (cmd_stores argv)) w (snd (main E argv w)).
Proof.
  set (n := length (cmd_stores argv)).
  apply (wp_final _ (main E argv) (fun w' => in_order n w w')). rewrite main_init. apply wp_bind.
  pose proof (init_quiet E argv w) as Q. fold (init E argv) in Q. pose proof (gives_init E argv w) as G. unfold wp in *.
  assert (K : forall wk w1, begun w wk -> quiet0 wk w1 -> at_state (order_step n) w ([], Between 0 []) w1 ([], Between 0 [])).
  { intros wk w1 (k & ->) Q1. destruct Q1 as (_ & _ & _ & _ & tr & A & B). exists tr. split; [exact A|].
    apply scan_neutral, Forall_rev. eapply Forall_impl; [|exact B]. intros ev. apply neutral_store. }
  destruct (init E argv w) as [[[su| |c]| | |] w1].
  - destruct Q as (wk & A & B & _). pose proof (K _ _ A B) as K1.
    assert (R : in_order n w1 (snd (run_sync E su w1))).
    { apply order_run. destruct (su_store su) as [l|]; [|exact I]. now apply Forall2_active in G. }
    destruct R as (tr & s' & T1 & T2). assert (R : in_order n w (snd (run_sync E su w1))).
    { eapply at_accepted. eapply at_trans; [exact K1|]. exists tr. split; [exact T1|exact T2]. }
    destruct (run_sync E su w1) as [[c| | |] w2]; exact R.
  - destruct Q as (wk & A & B & _). eapply at_accepted; eauto.
  - destruct Q as (wk & A & B & _). eapply at_accepted; eauto.
  - destruct Q as (wk & A & B). eapply at_accepted; eauto.
  - destruct Q as (wk & A & B). eapply at_accepted; eauto.
  - destruct Q as (wk & A & B). eapply at_accepted; eauto.
Qed.

(** ** C09 *)
Section Once.
Variable (E : env).
Notation at_f := (at_state once_step).
Definition some_active (l : list substore) : Prop := exists ss, In ss l /\ ss_active ss = true.
Lemma neutral_once s ev : neutral ev -> once_step s ev = Some s. Proof. destruct ev; cbn; tauto. Qed.
Lemma store_neutral ev : store_ev ev -> neutral ev. Proof. destruct ev; cbn; tauto. Qed.

Lemma once_chain id : forall l i t out w s, (snd s = true -> fst s <> id) ->
  wp (chain_loop E i l t id out) (fun x w' => exists s', at_f w s w' s' /\
       ((s' = s /\ ~ some_active l) \/ (fst s' = id /\ (snd s' = true -> some_active (snd (fst x))))))
     (fun _ w' => exists s', at_f w s w' s') w.
Proof.
  induction l as [|ss l IH]; intros i t out w s Hs; cbn [chain_loop].
  - apply wp_ret. exists s. split; [apply at_start|]. left. split; [reflexivity|]. intros (ss & [] & _).
  - destruct (ss_active ss) eqn:Es; cbn [negb].
    2:{ apply wp_bind. eapply wp_mono; [apply (IH (S i) t out w s Hs)| |auto]. intros [[[r out'] l'] t'] w' (s' & A & B). apply wp_ret. exists s'. split; [exact A|].
        destruct B as [(B & C)|(B & C)]; [left|right].
        - split; [exact B|]. intros (x & [<-|Hx] & Ha); [congruence|]. apply C. exists x. auto.
        - split; [exact B|]. intros H. destruct (C H) as (x & Hx & Ha). exists x. split; [now right|exact Ha]. }
    apply wp_bind, wp_trace, wp_bind. set (w1 := add_trace _ w).
    assert (A1 : at_f w s w1 (id, false)).
    { apply at_event. cbn. destruct s as [c [|]]; cbn [fst snd andb] in *; [|reflexivity]. destruct (beq c id) eqn:Eb; [|reflexivity]. apply beq_eq in Eb. elim Hs; auto. }
    apply (wp_frame none store_ev); [apply frame_store_get; intros; exact I|]. unfold wp at 1.
    assert (Nq : forall w2, quiet none store_ev w1 w2 -> at_f w s w2 (id, false)).
    { intros w2 Q. eapply at_trans; [exact A1|eapply at_quiet; [|exact Q]]. intros ev He. now apply neutral_once, store_neutral. }
    destruct (store_get_chunk E (ss_store ss) t id out w1) as [[[[[r out'] s0] t']| | |] w2]; [|eauto|eauto|eauto].
    intros Q. apply Nq in Q. apply wp_bind, wp_trace. set (w3 := add_trace _ w2).
    assert (A3 : at_f w s w3 (id, has_data r)) by (eapply at_trans; [exact Q|]; now apply at_event).
    assert (Cont : forall a, has_data r = false -> wp (bind (chain_loop E (S i) l t' id out') (fun '(r, out, l', t) => ret (r, out, mkSub s0 a :: l', t)))
       (fun x w' => exists s', at_f w s w' s' /\ ((s' = s /\ ~ some_active (ss :: l)) \/ (fst s' = id /\ (snd s' = true -> some_active (snd (fst x)))))) (fun _ w' => exists s', at_f w s w' s') w3).
    { intros a Hd. apply wp_bind. rewrite Hd in A3. eapply wp_mono; [apply (IH (S i) t' out' w3 (id, false)); discriminate| |].
      - intros [[[r2 out2] l2] t2] w' (s' & B1 & B2). apply wp_ret. exists s'. split; [eapply at_trans; eauto|]. right. destruct B2 as [(-> & _)|(B2 & B3)].
        + split; [reflexivity|discriminate].
        + split; [exact B2|]. intros H. destruct (B3 H) as (x & Hx & Ha). exists x. split; [now right|exact Ha].
      - intros bd w' (s' & B). exists s'. eapply at_trans; eauto. }
    destruct r as [k|]; [destruct (0 <? k) eqn:Ek|].
    + apply wp_ret. exists (id, has_data (Some k)). split; [exact A3|]. right. split; [reflexivity|]. intros _. eexists. split; [now left|reflexivity].
    + apply Cont. exact Ek.
    + apply Cont. reflexivity.
Qed.

Definition fetched (st : mstate) (s : bytes * bool) : Prop :=
  snd s = true -> m_last_id st = Some (fst s) /\ match m_store st with Some l => some_active l | None => True end.
Definition fstep (st : mstate) (m : M (bool * mstate)) : Prop := forall w s, fetched st s ->
  wp m (fun r w' => exists s', at_f w s w' s' /\ (fst r = true -> fetched (snd r) s')) (fun _ w' => exists s', at_f w s w' s') w.
Lemma fstep_ret st b st' : (b = true -> m_store st' = m_store st /\ m_last_id st' = m_last_id st) -> fstep st (ret (b, st')).
Proof. intros H w s Hs. apply wp_ret. exists s. split; [apply at_start|]. cbn. intros Hb. destruct (H Hb) as (A & B). unfold fetched. rewrite A, B. exact Hs. Qed.
Lemma fstep_quiet A st (m : M A) (k : A -> M (bool * mstate)) (S0 : nat -> Prop) : frame S0 neutral m -> (forall a, fstep st (k a)) -> fstep st (bind m k).
Proof.
  intros F Hk w s Hs. apply wp_bind. apply (wp_frame S0 neutral); [exact F|].
  assert (N0 : forall w1, quiet S0 neutral w w1 -> at_f w s w1 s) by (intros w1 Q; eapply at_quiet; [|exact Q]; intros; now apply neutral_once).
  apply wp_any.
  - intros a w1 Q. eapply wp_mono; [apply (Hk a w1 s Hs)| |].
    + intros r w2 (s' & A1 & A2). exists s'. split; [|exact A2]. eapply at_trans; eauto.
    + intros bd w2 (s' & A1). exists s'. eapply at_trans; eauto.
  - eauto.
Qed.
Lemma fstep_seq st (m : M (bool * mstate)) (k : bool * mstate -> M (bool * mstate)) : fstep st m -> (forall st', fstep st' (k (true, st'))) ->
  (forall st', exists st2, k (false, st') = ret (false, st2)) -> fstep st (bind m k).
Proof.
  intros Hm Hk Hf w s Hs. apply wp_bind. eapply wp_mono; [apply Hm, Hs| |auto]. intros [ok st1] w1 (s1 & A1 & A2). cbn [fst snd] in A2. destruct ok.
  - eapply wp_mono; [apply (Hk st1 w1 s1 (A2 eq_refl))| |].
    + intros r w2 (s' & B1 & B2). exists s'. split; [eapply at_trans; eauto|exact B2].
    + intros bd w2 (s' & B1). exists s'. eapply at_trans; eauto.
  - destruct (Hf st1) as (st2 & ->). apply wp_ret. exists s1. split; [exact A1|discriminate].
Qed.
Lemma fstep_store st st' (m : M (bool * mstate)) : m_store st' = m_store st -> m_last_id st' = m_last_id st -> fstep st' m -> fstep st m.
Proof. intros H1 H2 Hm w s Hs. apply Hm. unfold fetched. now rewrite H1, H2. Qed.
Lemma fstep_progress k st : fstep st (entry_progress E k st).
Proof.
  unfold entry_progress. destruct (e_interactive E); [|now apply fstep_ret]. apply (fstep_quiet _ _ _ _ none).
  - apply frame_trace. exact I.
  - intros _. now apply fstep_ret.
Qed.
Lemma fstep_fetch k o l id st : fstep st (entry_fetch_write E k o l id st).
Proof.
  unfold entry_fetch_write. apply fstep_seq.
  - destruct (match m_last_id st with Some _ => _ | None => false end) eqn:El; [now apply fstep_ret|].
    destruct (m_store st) as [chain|] eqn:Es; [|intros w s _; apply wp_ub; exists s; apply at_start].
    intros w s Hs. apply wp_bind. eapply wp_mono; [apply (once_chain id chain 0 (m_target st) (m_buf st) w s)| |auto].
    + intros Ht Heq. destruct (Hs Ht) as (Hl & _). rewrite Hl, Heq, beq_refl in El. discriminate.
    + intros [[[r buf] ch] t] w' (s' & A & B). cbn [fst snd] in B.
      destruct (match r with Some _ => _ | None => false end); apply wp_ret; exists s'; (split; [exact A|]); cbn [fst snd]; [|discriminate].
      intros _ Ht. cbn [m_set m_store m_last_id]. destruct B as [(-> & B)|(B1 & B2)].
      * destruct (Hs Ht) as (_ & Hc). rewrite Es in Hc. contradiction.
      * split; [now rewrite B1|auto].
  - intros st1. cbn [negb]. apply (fstep_quiet _ _ _ _ (eq (t_ino (m_target st1)))).
    + apply frame_target_write; auto; intros; exact I.
    + intros [ok2 t]. destruct ok2; cbn [negb]; [|now apply fstep_ret].
      eapply fstep_store; [| |apply fstep_progress]; reflexivity.
  - intros st1. cbn [negb]. eauto.
Qed.
Lemma fstep_entry k o l id st : fstep st (entry_cb E k o l id st).
Proof.
  unfold entry_cb. destruct (m_resuming st); [|apply fstep_fetch]. destruct (_ <? _); [now apply fstep_ret|].
  apply (fstep_quiet _ _ _ _ none); [apply frame_check_chunk|]. intros [[r buf] t].
  destruct r as [[|]|]; (eapply fstep_store; [| |first [apply fstep_progress|apply fstep_fetch]]); reflexivity.
Qed.
Lemma fstep_iterate (cb : N -> N -> bytes -> mstate -> M (bool * mstate)) ino p nn : (forall o l i a, fstep a (cb o l i a)) ->
  forall k i last a, fstep a (iterate_loop cb ino p nn k i last a).
Proof.
  intros Hcb. induction k as [|k IH]; intros i last a; cbn [iterate_loop]; [now apply fstep_ret|].
  apply (fstep_quiet _ _ _ _ none); [apply frame_readall|]. intros [ok d]. destruct ok; cbn [negb]; [|now apply fstep_ret]. cbv zeta.
  destruct (_ && _); [apply IH|]. apply fstep_seq; [apply Hcb| |]; intros st'; cbn [negb]; [apply IH|eauto].
Qed.
Lemma once_run su w : fetched_once w (snd (run_sync E su w)).
Proof.
  apply (wp_final _ (run_sync E su) (fun w' => fetched_once w w')). unfold run_sync. apply wp_bind.
  eapply wp_mono; [apply (fstep_iterate (entry_cb E (su_n su))) with (s := ([], false)); [intros; apply fstep_entry|intros X; discriminate]| |].
  2:{ intros bd w1 (s' & A). eapply at_accepted; eauto. }
  intros [ok st] w1 (s' & A & _). assert (K : fetched_once w w1) by (eapply at_accepted; eauto).
  destruct (negb ok); [apply wp_ret; exact K|]. destruct (m_store st); [|apply wp_ub; exact K].
  apply (wp_frame none never); [apply frame_bind; [apply frame_chain_free|intros; apply frame_ret]|].
  assert (K2 : forall w2, quiet none never w1 w2 -> fetched_once w w2).
  { intros w2 Q. eapply at_accepted. eapply at_trans; [exact A|]. eapply at_quiet; [|exact Q]. intros ev []. }
  apply wp_bind. apply wp_any; [|intros bd w2; apply K2]. intros _ w2. apply wp_ret. apply K2.
Qed.
End Once.

Lemma main_fetched_once E argv w : fetched_once w (snd (main E argv w)).
Proof.
  apply (wp_final _ (main E argv) (fun w' => fetched_once w w')). rewrite main_init. apply wp_bind.
  pose proof (init_quiet E argv w) as Q. fold (init E argv) in Q. unfold wp in *.
  assert (K : forall wk w1, begun w wk -> quiet0 wk w1 -> at_state once_step w ([], false) w1 ([], false)).
  { intros wk w1 (k & ->) Q1. destruct Q1 as (_ & _ & _ & _ & tr & A & B). exists tr. split; [exact A|].
    apply scan_neutral, Forall_rev. eapply Forall_impl; [|exact B]. intros ev He. now apply neutral_once, store_neutral. }
  destruct (init E argv w) as [[[su| |c]| | |] w1].
  - destruct Q as (wk & A & B & _). pose proof (K _ _ A B) as K1. destruct (once_run E su w1) as (tr & s' & T1 & T2).
    assert (R : fetched_once w (snd (run_sync E su w1))).
    { eapply at_accepted. eapply at_trans; [exact K1|]. exists tr. split; [exact T1|exact T2]. }
    destruct (run_sync E su w1) as [[c| | |] w2]; exact R.
  - destruct Q as (wk & A & B & _). eapply at_accepted; eauto.
  - destruct Q as (wk & A & B & _). eapply at_accepted; eauto.
  - destruct Q as (wk & A & B). eapply at_accepted; eauto.
  - destruct Q as (wk & A & B). eapply at_accepted; eauto.
  - destruct Q as (wk & A & B). eapply at_accepted; eauto.
Qed.

(** ** C49 *)
Lemma classified tp arg : documented tp arg (classify_arg tp arg).
Proof.
  unfold classify_arg. destruct (beq arg tp) eqn:Eb; [apply beq_eq in Eb; now constructor|apply beq_neq in Eb].
  destruct (startswith arg (bs "http")) eqn:Es.
  - apply startswith_spec in Es as (rest & ->). now apply doc_http with rest.
  - assert (Hn : forall rest, arg <> bs "http" ++ rest) by (intros rest ->; assert (startswith (bs "http" ++ rest) (bs "http") = true) by (apply startswith_spec; eauto); congruence).
    pose proof (PfHttp2.strchr_spec arg 58) as Hc. destruct (strchr arg 58) as [q|].
    + destruct Hc as (A & B). eapply doc_indexed; eauto.
    + now apply doc_local.
Qed.
Lemma colon_split (a b a' b' : bytes) : a ++ [58] ++ b = a' ++ [58] ++ b' -> ~ In 58 a -> ~ In 58 a' -> a = a' /\ b = b'.
Proof.
  revert a'. induction a as [|x a IH]; intros [|x' a'] H Ha Ha'; cbn in H.
  - injection H as H. auto.
  - injection H as H1 H2. elim Ha'. now left.
  - injection H as H1 H2. elim Ha. now left.
  - injection H as -> H. destruct (IH a' H) as (-> & ->); auto; intros X; [apply Ha|apply Ha']; now right.
Qed.
Lemma documented_unique tp arg a a' : documented tp arg a -> documented tp arg a' -> a = a'.
Proof.
  assert (In58 : forall (p i : bytes), In 58 (p ++ [58] ++ i)) by (intros; apply in_or_app; right; now left).
  intros H H'. destruct H as [H|r H1 H2|H1 H2 H3|p i H1 H2 H3 H4], H' as [K|r' K1 K2|K1 K2 K3|p' i' K1 K2 K3 K4]; try congruence; try reflexivity; try (now elim (K2 _ H2)); try (now elim (H2 _ K2)).
  - elim H3. rewrite K3. apply In58.
  - elim K3. rewrite H3. apply In58.
  - rewrite H3 in K3. apply colon_split in K3 as (-> & ->); auto.
Qed.
Lemma stores_in_order E argv w su w' l : init E argv w = (Ok (InitOk su), w') -> su_store su = Some l ->
  Forall2 (fun arg ss => exists a, documented (cmd_target argv) arg a /\ store_for E (su_params su) a ss) (cmd_stores argv) l.
Proof.
  intros H Hs. pose proof (gives_init E argv w) as G. rewrite H, Hs in G. eapply Forall2_weaken; [|exact G]. intros arg ss Hss. exists (classify_arg (cmd_target argv) arg). split; [apply classified|exact Hss].
Qed.

Lemma chain_answer E id : forall l i t out w, wp (chain_loop E i l t id out) (fun x w' => answered_by w w' (fst (fst (fst x)))) (fun _ _ => True) w.
Proof.
  induction l as [|ss l IH]; intros i t out w; cbn [chain_loop].
  - apply wp_ret. exists []. split; [reflexivity|]. left. split; [reflexivity|]. intros j a [].
  - destruct (negb (ss_active ss)).
    + apply wp_bind. eapply wp_mono; [apply IH| |auto]. intros [[[r out'] l'] t'] w' H. apply wp_ret. exact H.
    + apply wp_bind, wp_trace, wp_bind. apply (wp_frame none store_ev); [apply frame_store_get; intros; exact I|]. apply wp_any; [|auto].
      intros [[[r out'] s'] t'] w1 (_ & _ & _ & _ & tr & T1 & T2). apply wp_bind, wp_trace. set (w2 := add_trace _ w1).
      assert (Tr : w_trace w2 = (TAnswer i r :: tr ++ [TQuery i id]) ++ w_trace w) by (cbn; rewrite T1; cbn; now rewrite <- app_assoc).
      assert (Cont : forall a, has_data r = false -> wp (bind (chain_loop E (S i) l t' id out') (fun '(r, out, l', t) => ret (r, out, mkSub s' a :: l', t)))
        (fun x w' => answered_by w w' (fst (fst (fst x)))) (fun _ _ => True) w2).
      { intros a Hd. apply wp_bind. eapply wp_mono; [apply IH| |auto]. intros [[[r2 out2] l2] t2] w3 (tr2 & A & B). apply wp_ret. cbn [fst] in *.
        exists (tr2 ++ (TAnswer i r :: tr ++ [TQuery i id])). split; [now rewrite A, Tr, app_assoc|]. destruct B as [(-> & B)|(j & k & tr' & -> & B)].
        - left. split; [reflexivity|]. intros j x Hx. apply in_app_or in Hx as [Hx|[Hx|Hx]]; [eauto|congruence|]. apply in_app_or in Hx as [Hx|[Hx|[]]]; [|discriminate].
          rewrite Forall_forall in T2. destruct (T2 _ Hx).
        - right. exists j, k. eexists. split; [reflexivity|exact B]. }
      destruct r as [k|]; [destruct (0 <? k) eqn:Ek|].
      * apply wp_ret. cbn [fst]. eexists. split; [exact Tr|]. right. exists i, k. eexists. split; [reflexivity|]. split; [now apply N.ltb_lt|reflexivity].
      * apply Cont. exact Ek.
      * apply Cont. reflexivity.
Qed.
Lemma chain_result E l t id out w r out' l' t' w' : store_chain_get_chunk E l t id out w = (Ok (r, out', l', t'), w') -> answered_by w w' r.
Proof. intros H. exact (wp_ok _ _ _ _ _ _ _ (chain_answer E id l 0 t out w) H). Qed.
