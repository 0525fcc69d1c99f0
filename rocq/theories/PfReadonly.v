(** Only the target is ever changed (C12), and nothing is flushed (C47). *)
From Verif Require Import Base Lib Utils Sha Chunker Caibx Index StoreLocal Target StoreHttp Chain Ui MainProg
  SpecBasic SpecStore SpecMain SpecRun PfUtils PfBasic PfIO PfFrame PfLocal.
Local Open Scope N_scope.

(** Whatever happens, the result satisfies [K]. *)
Definition gives {A} (K : A -> Prop) (m : M A) : Prop := forall w, match m w with (Ok a, _) => K a | _ => True end.
Lemma gives_ret A (K : A -> Prop) a : K a -> gives K (ret a). Proof. intros H w. exact H. Qed.
Lemma gives_bind A B (J : A -> Prop) (K : B -> Prop) m k : gives J m -> (forall a, J a -> gives K (k a)) -> gives K (bind m k).
Proof. intros Hm Hk w. unfold bind. specialize (Hm w). destruct (m w) as [[a| | |] w']; auto. apply Hk, Hm. Qed.
Lemma gives_any A (m : M A) : gives (fun _ => True) m.
Proof. intros w. destruct (m w) as [[a| | |] w']; exact I. Qed.
Lemma gives_ub A (K : A -> Prop) : gives K ub. Proof. intros w. exact I. Qed.
Lemma gives_wp A (K : A -> Prop) (S : nat -> Prop) (P : tev -> Prop) m w : gives K m -> frame S P m ->
  wp m (fun a w' => quiet S P w w' /\ K a) (fun _ w' => quiet S P w w') w.
Proof. intros G F. specialize (G w). specialize (F w). unfold wp. destruct (m w) as [[a| | |] w']; auto. Qed.

Ltac skip_bind := eapply gives_bind; [apply gives_any|]; intros ? _.

Lemma gives_add E t l o i : gives (fun t' => t_ino t' = t_ino t) (target_add_chunk E t l o i).
Proof.
  unfold target_add_chunk. destruct (negb _); [now apply gives_ret|]. skip_bind. destruct a as [[r|] x]; [now apply gives_ret|].
  skip_bind. destruct a as [r y]. now apply gives_ret.
Qed.
Lemma gives_check E t tmp l o i : gives (fun r => t_ino (snd r) = t_ino t) (target_check_chunk E t tmp l o i).
Proof.
  unfold target_check_chunk. skip_bind. destruct a as [ok d]. destruct (negb ok); [now apply gives_ret|]. skip_bind.
  destruct (negb _); [now apply gives_ret|]. eapply gives_bind; [apply gives_add|]. intros t' H. now apply gives_ret.
Qed.
Lemma gives_get E t id out : gives (fun r => t_ino (snd r) = t_ino t) (target_get_chunk E t id out).
Proof.
  unfold target_get_chunk. destruct (negb _); [now apply gives_ret|]. skip_bind. destruct a as [[r|] x]; [|now apply gives_ret].
  skip_bind. destruct (_ <? _); [now apply gives_ret|]. skip_bind. destruct a0 as [ok d]. destruct (negb ok); now apply gives_ret.
Qed.
Lemma gives_write E t d l o i : gives (fun r => t_ino (snd r) = t_ino t) (target_write E t d l o i).
Proof.
  unfold target_write. destruct (_ <? _); [apply gives_ub|]. skip_bind. skip_bind. destruct (negb a0); [now apply gives_ret|].
  eapply gives_bind; [apply gives_add|]. intros t' H. now apply gives_ret.
Qed.
Lemma gives_store_get E s t id out : gives (fun r => t_ino (snd r) = t_ino t) (store_get_chunk E s t id out).
Proof.
  destruct s; cbn [store_get_chunk].
  - skip_bind. destruct a as [[? ?] ?]. now apply gives_ret.
  - skip_bind. destruct a as [[? ?] ?]. now apply gives_ret.
  - eapply gives_bind; [apply gives_get|]. intros [[? ?] ?] H. now apply gives_ret.
Qed.
Lemma gives_chain E id : forall l i t out, gives (fun r => t_ino (snd r) = t_ino t) (chain_loop E i l t id out).
Proof.
  induction l as [|ss l IH]; intros i t out; cbn [chain_loop]; [now apply gives_ret|]. destruct (negb _).
  - eapply gives_bind; [apply IH|]. intros [[[? ?] ?] ?] H. now apply gives_ret.
  - skip_bind. eapply gives_bind; [apply gives_store_get|]. intros [[[r o] s] t'] H. cbn [snd] in H. skip_bind.
    assert (K : forall a, gives (fun r => t_ino (snd r) = t_ino t) ('(r, out, l', t) <- chain_loop E (S i) l t' id o;; ret (r, out, mkSub s a :: l', t))).
    { intros x. eapply gives_bind; [apply IH|]. intros [[[? ?] ?] ?] H'. apply gives_ret. cbn [snd] in *. congruence. }
    destruct r as [n|]; [destruct (0 <? n)|]; auto. now apply gives_ret.
Qed.
Lemma gives_progress E n st : gives (fun r => m_target (snd r) = m_target st) (entry_progress E n st).
Proof. unfold entry_progress. destruct (e_interactive E); [|now apply gives_ret]. skip_bind. now apply gives_ret. Qed.

(** Everything a run does to files and to the trace *)
Definition rec_ev (tino : nat) (ev : tev) : Prop := match ev with TWrite i _ _ | TPut i _ _ => i = tino | TSync _ => False | _ => True end.

Section One.
Variables (E : env) (tino : nat).
Notation fr := (frame (eq tino) (rec_ev tino)).
Notation qt := (quiet (eq tino) (rec_ev tino)).
Lemma frame_progress n st : fr (entry_progress E n st).
Proof. unfold entry_progress. destruct (e_interactive E); [|apply frame_ret]. apply frame_bind; [apply frame_trace; exact I|intros; apply frame_ret]. Qed.

Definition ok_state (st : mstate) : Prop := t_ino (m_target st) = tino.
Definition step_ok {A} (m : M (A * mstate)) : Prop := forall w, wp m (fun r w' => qt w w' /\ ok_state (snd r)) (fun _ w' => qt w w') w.
Lemma step_ret A (r : A * mstate) : ok_state (snd r) -> step_ok (ret r). Proof. intros H w. apply wp_ret. split; [apply quiet_refl|exact H]. Qed.
Lemma step_bind A B (m : M A) (k : A -> M (B * mstate)) (K : A -> Prop) : fr m -> gives K m -> (forall a, K a -> step_ok (k a)) -> step_ok (bind m k).
Proof.
  intros F G Hk w. apply wp_bind. eapply wp_mono; [apply (gives_wp _ K _ _ m w G F)| |auto].
  intros a w1 (Q & Ha). eapply wp_mono; [apply Hk, Ha| |]; cbv beta.
  - intros r w2 (Q2 & Hr). split; [eapply quiet_trans; eauto|exact Hr].
  - intros bd w2 Q2. eapply quiet_trans; eauto.
Qed.
Lemma step_seq A B (m : M (A * mstate)) (k : A * mstate -> M (B * mstate)) : step_ok m -> (forall a, ok_state (snd a) -> step_ok (k a)) -> step_ok (bind m k).
Proof.
  intros Hm Hk w. apply wp_bind. eapply wp_mono; [apply Hm| |auto].
  intros a w1 (Q & Ha). eapply wp_mono; [apply Hk, Ha| |]; cbv beta.
  - intros r w2 (Q2 & Hr). split; [eapply quiet_trans; eauto|exact Hr].
  - intros bd w2 Q2. eapply quiet_trans; eauto.
Qed.
Lemma step_progress n st : ok_state st -> step_ok (entry_progress E n st).
Proof.
  intros H w. eapply wp_mono; [apply (gives_wp _ _ _ _ _ w (gives_progress E n st) (frame_progress n st))| |auto].
  intros r w' (Q & Hr). split; [exact Q|]. unfold ok_state. now rewrite Hr.
Qed.
Lemma step_fetch n o l id st : ok_state st -> step_ok (entry_fetch_write E n o l id st).
Proof.
  intros H. unfold entry_fetch_write. apply step_seq.
  - destruct (match m_last_id st with Some _ => _ | None => false end); [now apply step_ret|].
    destruct (m_store st) as [chain|]; [|intros w; apply wp_ub, quiet_refl].
    eapply step_bind; [apply frame_chain_get; intros; exact I|apply gives_chain|]. intros [[[r buf] ch] t] Ht. cbn [snd] in Ht.
    destruct (match r with Some _ => _ | None => false end); apply step_ret; unfold ok_state in *; cbn; congruence.
  - intros [ok st1] H1. cbn [snd] in H1. destruct (negb ok); [now apply step_ret|].
    eapply step_bind; [|apply gives_write|].
    + apply frame_target_write; [symmetry; exact H1|intros; exact H1|intros; exact H1].
    + intros [ok2 t] Ht. cbn [snd] in Ht. assert (H2 : ok_state (m_set st1 (m_store st1) t (m_last_id st1) (m_resuming st1) (m_buf st1))) by (unfold ok_state in *; cbn; congruence).
      destruct (negb ok2); [now apply step_ret|now apply step_progress].
Qed.
Lemma step_entry n o l id st : ok_state st -> step_ok (entry_cb E n o l id st).
Proof.
  intros H. unfold entry_cb. destruct (m_resuming st); [|now apply step_fetch]. destruct (_ <? _); [now apply step_ret|].
  eapply step_bind; [apply frame_check_chunk|apply gives_check|]. intros [[r buf] t] Ht. cbn [snd] in Ht.
  destruct r as [[|]|].
  - apply step_progress. unfold ok_state in *. cbn. congruence.
  - apply step_fetch. unfold ok_state in *. cbn. congruence.
  - apply step_fetch. unfold ok_state in *. cbn. congruence.
Qed.
Lemma step_iterate (cb : N -> N -> bytes -> mstate -> M (bool * mstate)) ino p nn : (forall o l i a, ok_state a -> step_ok (cb o l i a)) ->
  forall k i last a, ok_state a -> step_ok (iterate_loop cb ino p nn k i last a).
Proof.
  intros Hcb. induction k as [|k IH]; intros i last a Ha; cbn [iterate_loop]; [now apply step_ret|].
  eapply step_bind; [apply frame_readall|apply gives_any|]. intros [ok d] _. destruct (negb ok); [now apply step_ret|]. cbv zeta.
  destruct (_ && _); [now apply IH|]. apply step_seq; [now apply Hcb|]. intros [ok2 a2] H2. destruct (negb ok2); [now apply step_ret|]. now apply IH.
Qed.
Lemma run_quiet su w : t_ino (su_target su) = tino -> qt w (snd (run_sync E su w)).
Proof.
  intros H. apply (wp_final _ (run_sync E su) (fun w' => qt w w')). unfold run_sync. apply wp_bind.
  eapply wp_mono; [apply (step_iterate (entry_cb E (su_n su)))| |auto].
  - intros. now apply step_entry.
  - exact H.
  - intros [ok st] w1 (Q & _). destruct (negb ok); [apply wp_ret; exact Q|]. destruct (m_store st); [|apply wp_ub; exact Q].
    apply (wp_frame (eq tino) (rec_ev tino)); [apply frame_bind; [apply frame_chain_free|intros; apply frame_ret]|].
    assert (K : forall w2, qt w1 w2 -> qt w w2) by (intros; eapply quiet_trans; eauto).
    apply wp_bind. unfold wp at 1. destruct (store_chain_free l w1) as [[u| | |] w2]; auto. apply wp_ret. auto.
Qed.
End One.

(** ** Setting up *)
Lemma gives_append_store E tp cp n b a : gives (fun r => match r with Some b' => t_ino (b_target b') = t_ino (b_target b) | None => True end)
  (append_store_from_arg E tp cp n b a).
Proof.
  unfold append_store_from_arg. eapply gives_bind with (J := fun r => match r with Some (s, t) => t_ino t = t_ino (b_target b) | None => True end).
  - destruct (classify_arg tp a).
    + eapply gives_bind with (J := fun r => t_ino (snd r) = t_ino (b_target b)).
      * unfold target_as_store. destruct (t_queryable _); [now apply gives_ret|]. skip_bind. destruct a0 as [ok x]. destruct (negb ok); now apply gives_ret.
      * intros [ok t] H. apply gives_ret. destruct ok; auto.
    + skip_bind. apply gives_ret. destruct a0; auto.
    + skip_bind. apply gives_ret. destruct a0; auto.
  - intros [[s t]|] H; [|now apply gives_ret]. skip_bind. destruct a0 as [[ok sp] ch]. apply gives_ret. destruct ok; auto.
Qed.
Lemma gives_append_stores E tp cp n : forall args b, gives (fun r => match r with Some b' => t_ino (b_target b') = t_ino (b_target b) | None => True end)
  (append_stores E tp cp n b args).
Proof.
  induction args as [|a args IH]; intros b; cbn [append_stores]; [now apply gives_ret|].
  eapply gives_bind; [apply gives_append_store|]. intros [b'|] H; [|now apply gives_ret].
  intros w. specialize (IH b' w). destruct (append_stores E tp cp n b' args w) as [[[b2|]| | |] w']; auto. congruence.
Qed.
Lemma gives_opts E tp cp n : forall os b, gives (fun r => match r with OptsDone b' | OptsHelp b' => t_ino (b_target b') = t_ino (b_target b) | _ => True end)
  (casync_opts E tp cp n b os).
Proof.
  induction os as [|o os IH]; intros b; cbn [casync_opts]; [now apply gives_ret|]. destruct o; auto; try (now apply gives_ret).
  eapply gives_bind; [apply gives_append_store|]. intros [b'|] H; [|now apply gives_ret].
  intros w. specialize (IH b' w). destruct (casync_opts E tp cp n b' os w) as [[[b2|b2| |]| | |] w']; auto; congruence.
Qed.
Lemma gives_target_new E tp : gives (fun r => match r with Some t => e_open_rw E tp = Some (t_ino t) | None => True end) (target_new E tp).
Proof. unfold target_new. skip_bind. destruct (negb a); [now apply gives_ret|]. destruct (e_open_rw E tp) eqn:Et; now apply gives_ret. Qed.

Definition setup_for (E : env) (tp : bytes) (r : init_res) : Prop :=
  match r with InitOk su => e_open_rw E tp = Some (t_ino (su_target su)) | _ => True end.

Lemma frame_opts (S : nat -> Prop) (P : tev -> Prop) E tp cp n : (forall e, store_ev e -> P e) -> forall os b, frame S P (casync_opts E tp cp n b os).
Proof.
  intros HP. induction os as [|o os IH]; intros b; cbn [casync_opts]; [apply frame_ret|]. destruct o; auto; try apply frame_ret.
  apply frame_bind; [apply frame_append_store; intros; apply HP; exact I|]. intros [b'|]; [apply IH|apply frame_ret].
Qed.

Definition begun (w wk : world) : Prop := exists k, wk = set_kcapi k (w_kev w) w.
Lemma init_quiet E argv w :
  wp (if beq (basename (nth 0 argv [])) (bs "csn") then csn E argv
        else if beq (basename (nth 0 argv [])) (bs "casync") then casync E argv
        else ret (InitExit 1))
    (fun r w1 => exists wk, begun w wk /\ quiet0 wk w1 /\ setup_for E (cmd_target argv) r)
    (fun _ w1 => exists wk, begun w wk /\ quiet0 wk w1) w.
Proof.
  assert (B0 : begun w w) by (exists (w_kcapi w); now destruct w).
  destruct (beq (basename (nth 0 argv [])) (bs "csn")) eqn:Ec; [|destruct (beq (basename (nth 0 argv [])) (bs "casync"))].
  - assert (Et : cmd_target argv = nth 2 argv []) by (unfold cmd_target, is_csn; now rewrite Ec).
    unfold csn. destruct argv as [|a0 [|a1 [|a2 [|a3 args]]]]; try (apply wp_ret; exists w; split; [exact B0|]; split; [apply quiet0_refl|exact I]).
    rewrite Et. cbn [nth]. clear Et. apply wp_bind.
    match goal with |- context [if negb _ then ret InitFail else ?m] => set (rest := m) end.
    assert (G : gives (setup_for E a2) rest).
    { unfold rest. destruct (e_open E a1) as [ino|]; [|now apply gives_ret]. skip_bind. destruct a as [[cp n]|]; [|now apply gives_ret].
      eapply gives_bind; [apply gives_target_new|]. intros [t|] Ht; [|now apply gives_ret]. skip_bind. destruct a as [sp|]; [|now apply gives_ret].
      eapply gives_bind; [apply gives_append_stores|]. intros [bd|] Hb; [|now apply gives_ret]. apply gives_ret. cbn. cbn in Hb. now rewrite Hb. }
    assert (F : frame none store_ev rest).
    { unfold rest. framer; try apply frame_load_header; try apply frame_target_new; try apply frame_chain_new; try (apply frame_append_stores; intros; exact I). }
    assert (K : forall wk, begun w wk -> wp rest (fun r w1 => exists wk, begun w wk /\ quiet0 wk w1 /\ setup_for E a2 r) (fun _ w1 => exists wk, begun w wk /\ quiet0 wk w1) wk).
    { intros wk Hk. eapply wp_mono; [apply (gives_wp _ _ _ _ rest wk G F)| |]; cbv beta; [intros r w1 (A & B)|intros bd w1 A]; eauto. }
    destruct (e_getenv E (bs "CSN_KCAPI_DRIVER")) as [drv|].
    + unfold sha_kcapi_init, wp at 1. destruct (e_kcapi_ok E); cbn [negb].
      * apply K. exists true. reflexivity.
      * apply wp_ret. exists w. split; [exact B0|]. split; [apply quiet0_refl|exact I].
    + apply wp_ret. cbn [negb]. apply K, B0.
  - assert (Et : cmd_target argv = nth (length argv - 1) argv []) by (unfold cmd_target, is_csn; now rewrite Ec).
    assert (G : gives (setup_for E (cmd_target argv)) (casync E argv)).
    { rewrite Et. unfold casync. cbv zeta. destruct (Nat.ltb _ 3); [now apply gives_ret|]. destruct (e_open E _) as [ino|]; [|now apply gives_ret].
      skip_bind. destruct a as [[cp n]|]; [|now apply gives_ret].
      eapply gives_bind; [apply gives_target_new|]. intros [t|] Ht; [|now apply gives_ret]. skip_bind. destruct a as [sp|]; [|now apply gives_ret].
      destruct (getopt_all (skipn 1 argv)) as [os ns]. eapply gives_bind; [apply gives_opts|]. intros [bd|bd| |] Hb.
      - destruct (_ || _); apply gives_ret; cbn; [exact I|]. cbn in Hb. now rewrite Hb.
      - apply gives_ret. cbn. cbn in Hb. now rewrite Hb.
      - now apply gives_ret.
      - now apply gives_ret. }
    assert (F : frame none store_ev (casync E argv)).
    { unfold casync. cbv zeta. framer; try apply frame_load_header; try apply frame_target_new; try apply frame_chain_new; try (apply frame_opts; auto). }
    eapply wp_mono; [apply (gives_wp _ _ _ _ _ w G F)| |]; cbv beta; [intros r w1 (A & B)|intros bd w1 A]; eauto.
  - apply wp_ret. exists w. split; [exact B0|]. split; [apply quiet0_refl|exact I].
Qed.

Lemma main_only_target E argv w : only_target E argv w (snd (main E argv w)).
Proof.
  apply (wp_final _ (main E argv) (only_target E argv w)). unfold main. cbv zeta. apply wp_bind.
  assert (Q0 : forall wk w1, begun w wk -> quiet0 wk w1 -> only_target E argv w w1).
  { intros wk w1 (k & ->) Q. split; [intros i _; apply (quiet0_files _ _ Q)|]. destruct Q as (_ & _ & _ & _ & tr & A & B). exists tr. split; [exact A|].
    eapply Forall_impl; [|exact B]. intros [] H; cbn in *; tauto. }
  eapply wp_mono; [apply init_quiet| |].
  2:{ intros bd w1 (wk & A & B). eauto. }
  intros [su| |c] w1 (wk & A & B & C); [|apply wp_ret; eauto|apply wp_ret; eauto]. cbn in C.
  pose proof (Q0 _ _ A B) as (F1 & tr1 & T1 & T2). pose proof (run_quiet E (t_ino (su_target su)) su w1 eq_refl) as (F2 & _ & _ & _ & tr2 & T3 & T4).
  assert (K : only_target E argv w (snd (run_sync E su w1))).
  { split.
    - intros i Hi. rewrite F2 by congruence. now apply F1.
    - exists (tr2 ++ tr1). split; [now rewrite T3, T1, app_assoc|]. apply Forall_app. split; [|exact T2].
      eapply Forall_impl; [|exact T4]. intros [] H; cbn in *; subst; auto. }
  unfold wp. destruct (run_sync E su w1) as [[c| | |] w2]; exact K.
Qed.
