(** Servers that cannot be used are given up after a fixed number of requests (C89). *)
From Verif Require Import Base Lib Utils Sha Encrypt Discr Chunker Caibx Index StoreLocal Target StoreHttp Chain Ui MainProg
  SpecBasic SpecEnv SpecHttp SpecMain SpecRun SpecTransfers SpecDown PfUtils PfBasic PfIO PfFrame PfSetup PfReadonly PfMemory PfTransfers.
Local Open Scope N_scope.

Section Amort.
Variable f : tev -> N.
(** What [m] spends, together with what its result still entitles to, is at most [B]. *)
Definition amort {A} (K : A -> Prop) (F : A -> N) (B : N) (m : M A) : Prop := forall w, exists tr, w_trace (snd (m w)) = tr ++ w_trace w /\
  match fst (m w) with Ok a => weight f tr + F a <= B /\ K a | _ => weight f tr <= B end.
Lemma amort_ret A (K : A -> Prop) F B a : K a -> F a <= B -> amort K F B (ret a).
Proof. intros H1 H2 w. exists []. cbn. auto. Qed.
Lemma amort_ub A (K : A -> Prop) F B : amort K F B ub.
Proof. intros w. exists []. cbn. split; [reflexivity|lia]. Qed.
Lemma amort_bind A C (J : A -> Prop) F (K : C -> Prop) G B m k : amort J F B m -> (forall a, J a -> amort K G (F a) (k a)) -> amort K G B (bind m k).
Proof.
  intros Hm Hk w. unfold bind. destruct (Hm w) as (t1 & T1 & T2). destruct (m w) as [[a| | |] w1]; cbn [fst snd] in *.
  2,3,4: exists t1; auto.
  destruct T2 as (T2 & T3). destruct (Hk a T3 w1) as (t2 & T4 & T5). exists (t2 ++ t1). rewrite T4, T1, app_assoc. split; [reflexivity|]. rewrite weight_app.
  destruct (fst (k a w1)); [destruct T5; split; [lia|assumption]|lia..].
Qed.
Lemma amort_weigh A (K : A -> Prop) B C m : weigh f B K m -> amort K (fun _ => C) (B + C) m.
Proof. intros H w. destruct (H w) as ((tr & T1 & T2) & T3). exists tr. split; [exact T1|]. destruct (fst (m w)); [split; [lia|assumption]|lia..]. Qed.
Lemma amort_free A (K : A -> Prop) B m : weigh f 0 K m -> amort K (fun _ => B) B m.
Proof. intros H. exact (amort_weigh A K 0 B m H). Qed.
Lemma amort_mono A (J K : A -> Prop) F G B m : amort J F B m -> (forall a, J a -> K a /\ G a <= F a) -> amort K G B m.
Proof. intros H HK w. destruct (H w) as (tr & T1 & T2). exists tr. split; [exact T1|]. destruct (fst (m w)); [|exact T2..]. destruct T2 as (T2 & T3). destruct (HK _ T3). split; [lia|assumption]. Qed.

Hypotheses (Fscan : forall i, f (TScan i) = 0) (Fquery : forall i d, f (TQuery i d) = 0) (Fanswer : forall i r, f (TAnswer i r) = 0)
  (Fwrite : forall i o d, f (TWrite i o d) = 0) (Fput : forall i o d, f (TPut i o d) = 0) (Fprog : forall p, f (TProgress p) = 0).
Variables (E : env) (W : N).
Definition left_of (r : option N) (hs : hstore) : N := match r with Some _ => W * (11 - hs_err hs) | None => 0 end.
Definition few (r : option N) (hs : hstore) : Prop := match r with Some _ => hs_err hs <= 10 | None => True end.
Hypothesis Hget : forall hs id out, hs_err hs <= 10 ->
  amort (fun x => few (fst (fst x)) (snd x)) (fun x => left_of (fst (fst x)) (snd x)) (W * (11 - hs_err hs)) (store_http_get_chunk E hs id out).

Hypothesis Hany : forall hs id out, weigh f W any (store_http_get_chunk E hs id out).

(** What the active stores may still spend. *)
Definition pot (ss : substore) : N := match ss_store ss with SHttp hs => if ss_active ss then W * (11 - hs_err hs) else 0 | _ => 0 end.
Fixpoint pots (l : list substore) : N := match l with [] => 0 | ss :: r => pot ss + pots r end.
Definition okss (ss : substore) : Prop := match ss_store ss with SHttp hs => ss_active ss = true -> hs_err hs <= 10 | _ => True end.
Definition okl (l : list substore) : Prop := Forall okss l.
Definition rest (r : option N) (s : store) : N := pot (mkSub s (match r with Some _ => true | None => false end)).
Definition fine (r : option N) (s : store) : Prop := okss (mkSub s (match r with Some _ => true | None => false end)).
Lemma amort_store s t id out : okss (mkSub s true) ->
  amort (fun x => fine (fst (fst (fst x))) (snd (fst x))) (fun x => rest (fst (fst (fst x))) (snd (fst x))) (pot (mkSub s true)) (store_get_chunk E s t id out).
Proof.
  intros Hs. destruct s as [ls|hs|]; cbn [store_get_chunk].
  - eapply amort_bind; [apply amort_free, (weigh_frame _ _ everywhere), frame_local_get, Fscan|]. intros [[r o] ls'] _. apply amort_ret; [exact Logic.I|unfold rest, pot; cbn; lia].
  - eapply amort_bind; [apply Hget, Hs; reflexivity|]. intros [[r o] hs'] Hf. cbn [fst snd] in *. apply amort_ret; cbn [fst snd].
    + unfold fine, okss. cbn. destruct r; [intros _; exact Hf|discriminate].
    + unfold rest, pot, left_of. cbn. destruct r; lia.
  - eapply amort_bind; [apply amort_free, (weigh_frame _ _ everywhere), frame_target_get|]. intros [[r o] t'] _. apply amort_ret; [exact Logic.I|unfold rest, pot; cbn; lia].
Qed.
Lemma amort_add A (K : A -> Prop) F B C m : amort K F B m -> amort K (fun a => F a + C) (B + C) m.
Proof. intros H w. destruct (H w) as (tr & T1 & T2). exists tr. split; [exact T1|]. destruct (fst (m w)); [destruct T2; split; [lia|assumption]|lia..]. Qed.
Definition chain_of (x : option N * bytes * list substore * target) : list substore := snd (fst x).
Lemma amort_chain id : forall l i t out, okl l -> amort (fun x => okl (chain_of x)) (fun x => pots (chain_of x)) (pots l) (chain_loop E i l t id out).
Proof.
  induction l as [|[s a] l IH]; intros i t out Hl; cbn [chain_loop pots].
  { apply amort_ret; [constructor|cbn; lia]. }
  pose proof (Forall_inv Hl) as H0. pose proof (Forall_inv_tail Hl) as H1. cbn [ss_active ss_store].
  assert (Go : forall s' a' t' o, okss (mkSub s' a') -> amort (fun x => okl (chain_of x)) (fun x => pots (chain_of x)) (pot (mkSub s' a') + pots l)
    ('(r0, o0, l', t0) <- chain_loop E (S i) l t' id o ;; ret (r0, o0, mkSub s' a' :: l', t0))).
  { intros s' a' t' o Hs. rewrite N.add_comm. eapply amort_bind; [apply amort_add, (IH (S i) t' o H1)|]. intros [[[r0 o0] l'] t0] Hl'. unfold chain_of in *. cbn [fst snd] in *.
    apply amort_ret; cbn [fst snd]; [constructor; assumption|cbn [pots]; lia]. }
  destruct a; cbn [negb]; [|apply Go, H0].
  eapply amort_bind; [apply amort_free; rewrite <- (Fquery i id); apply weigh_trace|]. intros ? _. cbv beta.
  eapply amort_bind; [apply amort_add, amort_store, H0|]. intros [[[r o] s'] t'] Hf. cbn [fst snd] in *.
  eapply amort_bind; [apply amort_free; rewrite <- (Fanswer i r); apply weigh_trace|]. intros ? _. cbv beta.
  unfold rest, fine in *. destruct r as [n|]; [|apply Go, Hf]. destruct (0 <? n); [|apply Go, Hf].
  apply amort_ret; unfold chain_of; cbn [fst snd pots]; [constructor; assumption|lia].
Qed.

Section Entries.
Variable n : N.
Definition okst (st : mstate) : Prop := forall l, m_store st = Some l -> okl l.
Definition purse (st : mstate) : N := match m_store st with Some l => pots l | None => 0 end.
Notation amst B m := (amort (fun x => okst (snd x)) (fun x => purse (snd x)) B m).
Lemma amort_progress st : okst st -> amst (purse st) (entry_progress E n st).
Proof.
  intros Hc. unfold entry_progress. destruct (e_interactive E); [|apply amort_ret; [exact Hc|exact (N.le_refl _)]].
  eapply amort_bind; [apply amort_free; rewrite <- (Fprog (main_percent ((m_handled st + 1) mod M32) n)); apply weigh_trace|].
  intros ? _. apply amort_ret; [exact Hc|exact (N.le_refl _)].
Qed.
Lemma amort_fetch o l i st : okst st -> amst (purse st) (entry_fetch_write E n o l i st).
Proof.
  intros Hc. unfold entry_fetch_write. cbv zeta. eapply (amort_bind _ _ (fun x => okst (snd x)) (fun x => purse (snd x))).
  - destruct (match m_last_id st with Some l0 => beq l0 i | None => false end); [apply amort_ret; [exact Hc|exact (N.le_refl _)]|].
    destruct (m_store st) as [chain|] eqn:Es; [|apply amort_ub]. specialize (Hc _ Es). unfold purse at 2. rewrite Es.
    eapply amort_bind; [exact (amort_chain i chain 0 (m_target st) (m_buf st) Hc)|].
    intros [[[r b] c'] t'] Hn. unfold chain_of in *. cbn [fst snd] in Hn |- *. destruct (match r with Some n0 => _ | None => false end); (apply amort_ret; [intros l' [= <-]; exact Hn|exact (N.le_refl _)]).
  - intros [ok st'] Hc'. cbn [snd] in *. destruct (negb ok); [apply amort_ret; [exact Hc'|exact (N.le_refl _)]|].
    eapply amort_bind; [apply amort_free, weigh_target_write; [exact Fwrite|exact Fput]|]. intros [ok' t'] _. destruct (negb ok'); [apply amort_ret; [exact Hc'|exact (N.le_refl _)]|].
    match goal with |- amort _ _ _ (entry_progress E n ?st2) => exact (amort_progress st2 Hc') end.
Qed.
Lemma amort_entry o l i st : okst st -> amst (purse st) (entry_cb E n o l i st).
Proof.
  intros Hc. unfold entry_cb. destruct (m_resuming st); [|now apply amort_fetch]. destruct (BUF_SIZE <? l); [apply amort_ret; [exact Hc|exact (N.le_refl _)]|].
  eapply amort_bind; [apply amort_free, (weigh_frame _ _ everywhere), frame_check_chunk|]. intros [[r b] t'] _.
  destruct r as [[]|]; match goal with |- amort _ _ _ (_ ?st2) => first [exact (amort_progress st2 Hc)|exact (amort_fetch o l i st2 Hc)] end.
Qed.
Lemma amort_iterate ino p : forall k i last st, okst st -> amst (purse st) (iterate_loop (entry_cb E n) ino p n k i last st).
Proof.
  induction k as [|k IH]; intros i last st Hc; cbn [iterate_loop]; [apply amort_ret; [exact Hc|exact (N.le_refl _)]|].
  eapply amort_bind; [apply amort_free, (weigh_frame _ _ everywhere), frame_readall|]. intros [ok buf] _. destruct (negb ok); [apply amort_ret; [exact Hc|exact (N.le_refl _)]|].
  cbv zeta. destruct (_ && _); [now apply IH|]. eapply amort_bind; [apply amort_entry, Hc|].
  intros [ok' st'] Hc'. cbn [snd] in *. destruct (negb ok'); [apply amort_ret; [exact Hc'|exact (N.le_refl _)]|]. now apply IH.
Qed.
End Entries.

(** ** New stores have no errors *)
Definition clean (l : list substore) : Prop := Forall (fun ss => match ss_store ss with SHttp hs => hs_err hs = 0 | _ => True end) l.
Lemma clean_ok l : clean l -> okl l.
Proof. intros H. eapply Forall_impl; [|exact H]. intros ss Hs. unfold okss. cbv beta in Hs. destruct (ss_store ss) eqn:?; auto. lia. Qed.
Lemma clean_pots l : clean l -> pots l <= 11 * W * n_http l.
Proof.
  induction 1 as [|[s a] l H _ IH]; [cbn; lia|]. rewrite (n_http_one f Fwrite Fput Fprog E W Hany). cbn [pots]. unfold pot. cbn [ss_store ss_active] in *.
  destruct s; [lia| |lia]. rewrite H. destruct a; lia.
Qed.
Lemma gives_http_new url : gives (fun r => match r with Some hs => hs_err hs = 0 | None => True end) (store_http_new E url).
Proof.
  unfold store_http_new. destruct (negb _); [now apply gives_ret|]. skip_bind. destruct (negb a); [now apply gives_ret|]. skip_bind. destruct (negb a0); [now apply gives_ret|]. cbv zeta.
  skip_bind. destruct a1; [|now apply gives_ret].
  repeat match goal with |- gives _ (bind _ _) => skip_bind | |- gives _ (if ?c then _ else _) => destruct c | |- gives _ (ret _) => now apply gives_ret | |- gives _ ub => apply gives_ub end.
Qed.
Definition cleanb (r : option building) : Prop := match r with Some b => clean (b_chain b) | None => True end.
Lemma gives_append_clean tp cp n b arg : clean (b_chain b) -> gives cleanb (append_store_from_arg E tp cp n b arg).
Proof.
  intros Hb. unfold append_store_from_arg. eapply (gives_bind _ _ (fun r => match r with Some (s, t) => match s with SHttp hs => hs_err hs = 0 | _ => True end | None => True end)).
  - destruct (classify_arg tp arg) as [|url|path ip].
    + skip_bind. destruct a as [[] t]; now apply gives_ret.
    + eapply gives_bind; [apply gives_http_new|]. intros [hs|] H; now apply gives_ret.
    + skip_bind. destruct a; now apply gives_ret.
  - intros [[s t]|] Hr; [|now apply gives_ret]. unfold store_chain_append. cbv zeta.
    eapply (gives_bind _ _ (fun r => fst (fst r) = true -> snd r = b_chain b ++ [mkSub s true])).
    + skip_bind. destruct (negb a); [apply gives_ret; discriminate|]. destruct (_ <=? _); [apply gives_ub|]. now apply gives_ret.
    + intros [[ok space] chain] Hok. cbn [fst snd] in Hok. destruct ok; apply gives_ret; [|exact Logic.I]. cbn [cleanb b_chain]. rewrite (Hok eq_refl). apply Forall_app. split; [exact Hb|]. constructor; [exact Hr|constructor].
Qed.
Lemma gives_appends_clean tp cp n : forall args b, clean (b_chain b) -> gives cleanb (append_stores E tp cp n b args).
Proof.
  induction args as [|a args IH]; intros b Hb; cbn [append_stores]; [now apply gives_ret|].
  eapply gives_bind; [now apply gives_append_clean|]. intros [b'|] Hb'; [now apply IH|now apply gives_ret].
Qed.
Lemma gives_opts_clean tp cp n : forall os b, clean (b_chain b) -> gives (fun r => match r with OptsDone b' | OptsHelp b' => clean (b_chain b') | _ => True end) (casync_opts E tp cp n b os).
Proof.
  induction os as [|o os IH]; intros b Hb; cbn [casync_opts]; [now apply gives_ret|]. destruct o; [now apply gives_ret| |now apply IH|now apply gives_ret].
  eapply gives_bind; [now apply gives_append_clean|]. intros [b'|] Hb'; [now apply IH|now apply gives_ret].
Qed.
Lemma gives_init_clean argv : gives (fun r => match r with InitOk su => forall l, su_store su = Some l -> clean l | _ => True end) (init E argv).
Proof.
  unfold init. destruct (beq _ _); [|destruct (beq _ _); [|now apply gives_ret]].
  - unfold csn. destruct argv as [|a0 [|a1 [|a2 [|a3 args]]]]; try now apply gives_ret. skip_bind. destruct (negb a); [now apply gives_ret|].
    destruct (e_open E a1); [|now apply gives_ret]. skip_bind. destruct a4 as [[p m]|]; [|now apply gives_ret]. skip_bind. destruct a4; [|now apply gives_ret].
    skip_bind. destruct a4; [|now apply gives_ret]. eapply gives_bind; [apply gives_appends_clean; constructor|]. intros [b|] Hb; [|now apply gives_ret]. apply gives_ret. cbn [su_store]. intros l [= <-]. exact Hb.
  - unfold casync. cbv zeta. destruct (Nat.ltb _ _); [now apply gives_ret|]. destruct (e_open E _); [|now apply gives_ret]. skip_bind. destruct a as [[p m]|]; [|now apply gives_ret].
    skip_bind. destruct a; [|now apply gives_ret]. skip_bind. destruct a; [|now apply gives_ret]. destruct (getopt_all _) as [os ns].
    eapply gives_bind; [apply gives_opts_clean; constructor|]. intros [b|b| |] Hb; [| |now apply gives_ret|now apply gives_ret].
    + destruct (_ || _); [now apply gives_ret|]. apply gives_ret. cbn [su_store]. intros l [= <-]. exact Hb.
    + apply gives_ret. cbn [su_store]. discriminate.
Qed.

Lemma amort_main argv w : spent f (11 * W * http_stores argv) w (snd (main E argv w)).
Proof.
  rewrite main_init. pose proof (init_counts f Fscan Fquery Fanswer Fwrite Fput Fprog E W Hany argv w) as (L1 & L2). pose proof (gives_init_clean argv w) as L3.
  unfold bind. destruct (init E argv w) as [[[su| |c]| | |] w1]; cbn [fst snd] in *; try (eapply spent_le; [exact L1|lia]; fail).
  destruct L2 as (_ & L2). eapply spent_le; [apply (spent_trans _ 0 (11 * W * http_stores argv) _ _ _ L1)|lia].
  unfold run_sync, caibx_iterate_entries.
  assert (Hc : okst (initial_mstate su)) by (intros l Hl; apply clean_ok, L3, Hl).
  assert (Hp : purse (initial_mstate su) <= 11 * W * http_stores argv).
  { unfold purse. cbn [initial_mstate m_store]. destruct (su_store su) as [l|] eqn:Es; [|lia]. pose proof (clean_pots l (L3 _ eq_refl)). specialize (L2 _ eq_refl). nia. }
  match goal with |- spent f _ w1 (snd (?m w1)) => assert (G : amort any (fun _ => 0) (purse (initial_mstate su)) m) end.
  { eapply amort_bind; [apply amort_iterate, Hc|]. intros [ok st] _. cbn [snd]. destruct (negb ok); [apply amort_ret; [exact Logic.I|lia]|]. destruct (m_store st); [|apply amort_ub].
    eapply amort_bind; [apply amort_free, (weigh_frame _ _ everywhere), frame_chain_free|]. intros; apply amort_ret; [exact Logic.I|lia]. }
  destruct (G w1) as (tr & T1 & T2). exists tr. split; [exact T1|]. destruct (fst _) in T2; lia.
Qed.
End Amort.

(** ** A request that is refused *)
Lemma transient_true c : transient c -> curl_is_transient_error c = true.
Proof. unfold transient. intros H. decompose [or] H; subst; reflexivity. Qed.
Section Refused.
Variable E : env.
Hypothesis Hd : down E.
Definition bad_code (code : option N) : Prop := match code with None => True | Some c => 400 <= c /\ c <> 404 /\ c <> 410 end.
Definition useless (x : curlcode * option N * req) : Prop := curl_is_transient_error (fst (fst x)) = true \/ bad_code (snd (fst x)).
Lemma gives_perform_useless u r : gives useless (curl_easy_perform E u r).
Proof.
  intros w. unfold curl_easy_perform. cbv zeta. set (w1 := add_trace _ _). destruct (Hd u (w_nperf w)) as [(H1 & H2)|H].
  - rewrite H1. cbn [curl_deliver]. unfold bind, ret. left. cbn [fst]. now apply transient_true.
  - unfold bind. destruct (curl_deliver _ _ _ _ _ w1) as [[[c r']| | |] w2]; try exact Logic.I. cbn. right. exact H.
Qed.
Lemma gives_retried_useless u : forall rem us r, gives useless (retried_curl_easy_perform E u rem us r).
Proof.
  induction rem as [|rem IH]; intros us r; cbn [retried_curl_easy_perform]; [intros w; exact Logic.I|].
  eapply gives_bind; [apply gives_perform_useless|]. intros [[c code] r'] H. destruct (negb _); [now apply gives_ret|]. skip_bind. cbv zeta. destruct rem; [now apply gives_ret|apply IH].
Qed.
Lemma amort_request f p : (forall u, f (TPerform u) = p) -> forall hs id out, hs_err hs <= 10 ->
  amort f (fun x => few (fst (fst x)) (snd x)) (fun x => left_of (delays f p 10 200000) (fst (fst x)) (snd x)) (delays f p 10 200000 * (11 - hs_err hs)) (store_http_get_chunk E hs id out).
Proof.
  intros Fp hs id out He. set (W := delays f p 10 200000). unfold store_http_get_chunk. eapply amort_bind; [apply amort_free, (weigh_frame _ _ everywhere); unfold set_url; framer|].
  intros [url|] _; [|apply amort_ret; [exact Logic.I|cbn; lia]]. eapply amort_bind; [apply amort_free, (weigh_frame _ _ everywhere); framer|]. intros a _.
  destruct (negb a); [apply amort_ret; [exact Logic.I|cbn; lia]|]. cbv zeta.
  replace (W * (11 - hs_err hs)) with (W + W * (10 - hs_err hs)) by (replace (11 - hs_err hs) with (1 + (10 - hs_err hs)) by lia; lia).
  eapply amort_bind; [apply amort_weigh; eapply weigh_gives; [exact (weigh_retried f p Fp E url CONNECT_TRIES 200000 _)|apply gives_retried_useless]|]. intros [[c code] r] Hu. cbv beta iota.
  assert (Err : forall B, B = W * (10 - hs_err hs) -> amort f (fun x => few (fst (fst x)) (snd x)) (fun x => left_of W (fst (fst x)) (snd x)) B
    (let '(err, rv) := increase_error_counter (hs_err hs) in ret (rv, rq_out r, hs_after hs r err))).
  { intros B ->. unfold increase_error_counter. rewrite (N.mod_small _ M32) by (unfold M32; lia). cbv zeta. unfold ERROR_MAX.
    destruct (N.ltb_spec 10 (hs_err hs + 1)); (apply amort_ret; cbn [fst snd few left_of hs_after hs_err]; [try exact Logic.I; lia|]); [lia|].
    replace (11 - (hs_err hs + 1)) with (10 - hs_err hs) by lia. lia. }
  destruct Hu as [Hu|Hu]; cbn [fst snd] in Hu.
  - rewrite Hu. now apply Err.
  - destruct (curl_is_transient_error c); [now apply Err|].
    assert (Dead : forall (o : bytes) hs', amort f (fun x : option N * bytes * hstore => few (fst (fst x)) (snd x)) (fun x => left_of W (fst (fst x)) (snd x)) (W * (10 - hs_err hs)) (ret (None, o, hs'))) by (intros; apply amort_ret; [exact Logic.I|cbn; lia]).
    destruct c; try apply Dead; (destruct code as [code|]; [|apply Dead]; destruct Hu as (H1 & H2 & H3); replace (code =? 404) with false by lia; replace (code =? 410) with false by lia;
      replace (400 <=? code) with true by lia; now apply Err).
Qed.
End Refused.

Lemma down_bounded E argv w : down E -> exists tr, run_trace w (snd (main E argv w)) tr /\ performs tr <= 110 * http_stores argv /\ slept tr <= 578600000 * http_stores argv.
Proof.
  intros Hd. destruct (amort_main f_perf ltac:(reflexivity) ltac:(reflexivity) ltac:(reflexivity) ltac:(reflexivity) ltac:(reflexivity) ltac:(reflexivity) E _
    (amort_request E Hd f_perf 1 ltac:(reflexivity)) (weigh_request f_perf 1 ltac:(reflexivity) E) argv w) as (tr & T1 & T2).
  destruct (amort_main f_sleep ltac:(reflexivity) ltac:(reflexivity) ltac:(reflexivity) ltac:(reflexivity) ltac:(reflexivity) ltac:(reflexivity) E _
    (amort_request E Hd f_sleep 0 ltac:(reflexivity)) (weigh_request f_sleep 0 ltac:(reflexivity) E) argv w) as (tr' & T3 & T4).
  assert (tr' = tr) by (rewrite T1 in T3; now apply app_inv_tail in T3). subst tr'. exists tr. rewrite performs_weight, slept_weight.
  change (delays f_perf 1 10 200000) with 10 in T2. change (delays f_sleep 0 10 200000) with 52600000 in T4. split; [exact T1|]. split; [lia|lia].
Qed.
