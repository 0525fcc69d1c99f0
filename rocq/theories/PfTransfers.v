(** Transfers and delays of a whole run are bounded (C65). *)
From Verif Require Import Base Lib Utils Sha Encrypt Discr Chunker Caibx Index StoreLocal Target StoreHttp Chain Ui MainProg
  SpecBasic SpecEnv SpecMain SpecRun SpecTransfers PfUtils PfBasic PfIO PfFrame PfSetup PfReadonly PfMemory.
Local Open Scope N_scope.

Section Weigh.
Variable f : tev -> N.
Fixpoint weight (tr : list tev) : N := match tr with [] => 0 | t :: r => f t + weight r end.
Lemma weight_app a b : weight (a ++ b) = weight a + weight b.
Proof. induction a; cbn; lia. Qed.
Lemma weight_zero tr : Forall (fun t => f t = 0) tr -> weight tr = 0.
Proof. induction 1; cbn; lia. Qed.
Definition spent (B : N) (w w' : world) : Prop := exists tr, w_trace w' = tr ++ w_trace w /\ weight tr <= B.
Definition weigh {A} (B : N) (K : A -> Prop) (m : M A) : Prop := forall w, spent B w (snd (m w)) /\ match fst (m w) with Ok a => K a | _ => True end.
Definition any {A} (_ : A) : Prop := True.

Lemma spent_refl w : spent 0 w w. Proof. exists []. cbn. split; [reflexivity|lia]. Qed.
Lemma spent_trans B1 B2 a b c : spent B1 a b -> spent B2 b c -> spent (B1 + B2) a c.
Proof. intros (t1 & A1 & A2) (t2 & A3 & A4). exists (t2 ++ t1). rewrite weight_app, A3, A1, app_assoc. split; [reflexivity|lia]. Qed.
Lemma spent_le B1 B2 a b : spent B1 a b -> B1 <= B2 -> spent B2 a b.
Proof. intros (t & A1 & A2) L. exists t. split; [exact A1|lia]. Qed.
Lemma weigh_ret A (K : A -> Prop) a : K a -> weigh 0 K (ret a). Proof. intros H w. split; [apply spent_refl|exact H]. Qed.
Lemma weigh_ub A (K : A -> Prop) : weigh 0 K ub. Proof. intros w. split; [apply spent_refl|exact Logic.I]. Qed.
Lemma weigh_halt A (K : A -> Prop) : weigh 0 K halt. Proof. intros w. split; [apply spent_refl|exact Logic.I]. Qed.
Lemma weigh_le A B B' (J K : A -> Prop) m : weigh B J m -> B <= B' -> (forall a, J a -> K a) -> weigh B' K m.
Proof. intros H L HK w. destruct (H w) as (H1 & H2). split; [eapply spent_le; eauto|]. destruct (fst (m w)); auto. Qed.
Lemma weigh_ret_any A B (K : A -> Prop) a : K a -> weigh B K (ret a).
Proof. intros H. eapply weigh_le; [apply (weigh_ret _ K), H|lia|auto]. Qed.
Lemma weigh_ub_any A B (K : A -> Prop) : weigh B K ub.
Proof. eapply weigh_le; [apply (weigh_ub _ K)|lia|auto]. Qed.
Lemma weigh_bind A C B1 B2 (J : A -> Prop) (K : C -> Prop) m k : weigh B1 J m -> (forall a, J a -> weigh B2 K (k a)) -> weigh (B1 + B2) K (bind m k).
Proof.
  intros Hm Hk w. unfold bind. destruct (Hm w) as (H1 & H2). destruct (m w) as [[a| | |] w1]; cbn [fst snd] in *.
  2,3,4: split; [eapply spent_le; [exact H1|lia]|exact Logic.I].
  destruct (Hk a H2 w1) as (H3 & H4). split; [eapply spent_trans; eauto|exact H4].
Qed.
Lemma weigh_frame A (S : nat -> Prop) (m : M A) : frame S (fun t => f t = 0) m -> weigh 0 any m.
Proof. intros H w. split; [|destruct (fst (m w)); exact Logic.I]. destruct (H w) as (_ & _ & _ & _ & tr & T1 & T2). exists tr. rewrite (weight_zero _ T2). split; [exact T1|lia]. Qed.
Lemma weigh_gives A B (J K : A -> Prop) m : weigh B J m -> gives K m -> weigh B K m.
Proof. intros H G w. destruct (H w) as (H1 & _). split; [exact H1|]. specialize (G w). destruct (m w) as [[a| | |] w']; cbn; auto. Qed.
Lemma weigh_trace t : weigh (f t) any (trace t).
Proof. intros w. split; [|exact Logic.I]. exists [t]. cbn. split; [reflexivity|lia]. Qed.

(** ** What is free of charge *)
Definition everywhere (_ : nat) : Prop := True.
Hypotheses (Fscan : forall i, f (TScan i) = 0) (Fquery : forall i d, f (TQuery i d) = 0) (Fanswer : forall i r, f (TAnswer i r) = 0)
  (Fwrite : forall i o d, f (TWrite i o d) = 0) (Fput : forall i o d, f (TPut i o d) = 0) (Fprog : forall p, f (TProgress p) = 0).
Variables (E : env) (W : N).
Hypothesis Hget : forall hs id out, weigh W any (store_http_get_chunk E hs id out).

Definition is_http (ss : substore) : bool := match ss_store ss with SHttp _ => true | _ => false end.
Definition n_http (l : list substore) : N := N.of_nat (length (filter is_http l)).
Definition charge (s : store) : N := match s with SHttp _ => W | _ => 0 end.
Definition same_kind (s s' : store) : Prop := match s, s' with SHttp _, SHttp _ | SLocal _, SLocal _ | STarget, STarget => True | _, _ => False end.
Lemma weigh_store s t id out : weigh (charge s) (fun r => same_kind s (snd (fst r))) (store_get_chunk E s t id out).
Proof.
  destruct s as [ls|hs|]; cbn [store_get_chunk charge].
  - apply (weigh_bind _ _ 0 0 any); [apply (weigh_frame _ everywhere), frame_local_get, Fscan|]. intros [[r o] ls'] _. now apply weigh_ret.
  - replace W with (W + 0) by lia. apply (weigh_bind _ _ W 0 any); [apply Hget|]. intros [[r o] hs'] _. now apply weigh_ret.
  - apply (weigh_bind _ _ 0 0 any); [apply (weigh_frame _ everywhere), frame_target_get|]. intros [[r o] t'] _. now apply weigh_ret.
Qed.
Lemma n_http_one s a l : n_http (mkSub s a :: l) = (match s with SHttp _ => 1 | _ => 0 end) + n_http l.
Proof.
  unfold n_http. cbn [filter]. replace (is_http (mkSub s a)) with (match s with SHttp _ => true | _ => false end) by reflexivity.
  destruct s; cbn [length]; lia.
Qed.
Lemma n_http_cons s s' a a' l l' : same_kind s s' -> n_http l' = n_http l -> n_http (mkSub s' a' :: l') = n_http (mkSub s a :: l).
Proof. intros H1 H2. rewrite !n_http_one, H2. destruct s, s'; try contradiction; reflexivity. Qed.
Lemma weigh_chain id : forall l i t out, weigh (W * n_http l) (fun r => n_http (snd (fst r)) = n_http l) (chain_loop E i l t id out).
Proof.
  induction l as [|[s a] l IH]; intros i t out; cbn [chain_loop].
  { replace (W * n_http []) with 0 by (unfold n_http; cbn; lia). now apply weigh_ret. }
  assert (Hl : W * n_http (mkSub s a :: l) = charge s + W * n_http l) by (rewrite n_http_one; destruct s; cbn [charge]; lia).
  rewrite Hl. cbn [ss_active ss_store]. destruct (negb a).
  - eapply weigh_le; [apply (weigh_bind _ _ _ 0 _ _ _ _ (IH (S i) t out))| |]; cycle 1; [lia|intros x Hx; exact Hx|].
    intros [[[r o] l'] t'] H. apply weigh_ret. cbn [fst snd] in *. apply n_http_cons; [destruct s; exact Logic.I|exact H].
  - replace (charge s + W * n_http l) with (0 + (charge s + (0 + W * n_http l))) by lia.
    eapply weigh_bind; [rewrite <- (Fquery i id); apply weigh_trace|]. intros _ _.
    eapply weigh_bind; [apply weigh_store|]. intros [[[r o] s'] t'] Hs. cbn [fst snd] in Hs.
    eapply weigh_bind; [rewrite <- (Fanswer i r); apply weigh_trace|]. intros _ _.
    assert (Go : weigh (W * n_http l) (fun x => n_http (snd (fst x)) = n_http (mkSub s a :: l)) ('(r0, o0, l', t0) <- chain_loop E (S i) l t' id o ;; ret (r0, o0, mkSub s' false :: l', t0)) /\
                 weigh (W * n_http l) (fun x => n_http (snd (fst x)) = n_http (mkSub s a :: l)) ('(r0, o0, l', t0) <- chain_loop E (S i) l t' id o ;; ret (r0, o0, mkSub s' true :: l', t0))).
    { split; (eapply weigh_le; [apply (weigh_bind _ _ _ 0 _ _ _ _ (IH (S i) t' o))| |]; cycle 1; [lia|intros x Hx; exact Hx|]);
        intros [[[r0 o0] l'] t0] H; apply weigh_ret; cbn [fst snd] in *; now apply n_http_cons. }
    destruct r as [n|]; [|apply Go]. destruct (0 <? n); [|apply Go].
    apply weigh_ret_any. cbn [fst snd]. now apply n_http_cons.
Qed.

Section Entries.
Variables (H n : N).
Definition counted (st : mstate) : Prop := forall l, m_store st = Some l -> n_http l <= H.
Lemma weigh_progress st : counted st -> weigh 0 (fun r => counted (snd r)) (entry_progress E n st).
Proof.
  intros Hc. unfold entry_progress. destruct (e_interactive E); [|now apply weigh_ret]. apply (weigh_bind _ _ 0 0 any); [rewrite <- (Fprog (main_percent ((m_handled st + 1) mod M32) n)); apply weigh_trace|].
  intros _ _. now apply weigh_ret.
Qed.
Lemma weigh_target_write t d l o i : weigh 0 any (target_write E t d l o i).
Proof. apply (weigh_frame _ everywhere). apply frame_target_write; [exact Logic.I|intros; apply Fwrite|intros; apply Fput]. Qed.
Lemma weigh_fetch o l i st : counted st -> weigh (W * H) (fun r => counted (snd r)) (entry_fetch_write E n o l i st).
Proof.
  intros Hc. unfold entry_fetch_write. cbv zeta. replace (W * H) with (W * H + 0) by lia. eapply (weigh_bind _ _ _ _ (fun r => counted (snd r))).
  - destruct (match m_last_id st with Some l0 => beq l0 i | None => false end); [now apply weigh_ret_any|].
    destruct (m_store st) as [chain|] eqn:Es.
    { specialize (Hc _ Es). eapply weigh_le; [apply (weigh_bind _ _ _ 0 _ (fun r => counted (snd r)) _ _ (weigh_chain i chain 0 (m_target st) (m_buf st)))| |]; cycle 1; [nia|auto|].
        intros [[[r b] c'] t'] Hn. cbn [fst snd] in Hn. destruct (match r with Some n0 => _ | None => false end); apply weigh_ret; intros l' [= <-]; lia. }
    apply weigh_ub_any.
  - intros [ok st'] Hc'. cbn [snd] in Hc'. destruct (negb ok); [now apply weigh_ret|].
    apply (weigh_bind _ _ 0 0 any); [apply weigh_target_write|]. intros [ok' t'] _. destruct (negb ok'); [now apply weigh_ret|]. now apply weigh_progress.
Qed.
Lemma weigh_entry o l i st : counted st -> weigh (W * H) (fun r => counted (snd r)) (entry_cb E n o l i st).
Proof.
  intros Hc. unfold entry_cb. destruct (m_resuming st); [|now apply weigh_fetch]. destruct (BUF_SIZE <? l); [now apply weigh_ret_any|].
  change (W * H) with (0 + W * H). apply (weigh_bind _ _ 0 _ any); [apply (weigh_frame _ everywhere), frame_check_chunk|]. intros [[r b] t'] _.
  destruct r as [[]|]; [|now apply weigh_fetch..]. eapply weigh_le; [apply weigh_progress; exact Hc|lia|auto].
Qed.
Lemma weigh_iterate ino p : forall k i last st, counted st -> weigh (N.of_nat k * (W * H)) (fun r => counted (snd r)) (iterate_loop (entry_cb E n) ino p n k i last st).
Proof.
  induction k as [|k IH]; intros i last st Hc; cbn [iterate_loop]; [now apply weigh_ret|].
  replace (N.of_nat (S k) * (W * H)) with (0 + (W * H + N.of_nat k * (W * H))) by lia.
  apply (weigh_bind _ _ 0 _ any); [apply (weigh_frame _ everywhere), frame_readall|]. intros [ok buf] _. destruct (negb ok); [now apply weigh_ret_any|].
  cbv zeta. destruct (_ && _); [eapply weigh_le; [apply IH; exact Hc|lia|auto]|]. eapply weigh_bind; [apply weigh_entry, Hc|].
  intros [ok' st'] Hc'. cbn [snd] in Hc'. destruct (negb ok'); [now apply weigh_ret_any|]. now apply IH.
Qed.
End Entries.
Lemma weigh_run su H : (forall l, su_store su = Some l -> n_http l <= H) -> weigh (su_n su * (W * H)) any (run_sync E su).
Proof.
  intros Hs. unfold run_sync, caibx_iterate_entries. replace (su_n su * (W * H)) with (N.of_nat (N.to_nat (su_n su)) * (W * H) + 0) by lia.
  eapply weigh_bind; [apply (weigh_iterate H); exact Hs|]. intros [ok st] Hc. destruct (negb ok); [now apply weigh_ret|]. destruct (m_store st); [|apply weigh_ub].
  apply (weigh_bind _ _ 0 0 any); [apply (weigh_frame _ everywhere), frame_chain_free|]. intros; now apply weigh_ret.
Qed.

(** ** The number of HTTP stores and entries *)
Definition arg_http (tp a : bytes) : bool := match classify_arg tp a with ArgHttp _ => true | _ => false end.
Definition args_http (tp : bytes) (l : list bytes) : N := N.of_nat (length (filter (arg_http tp) l)).
Lemma n_http_snoc l s a : n_http (l ++ [mkSub s a]) = n_http l + (match s with SHttp _ => 1 | _ => 0 end).
Proof. unfold n_http. rewrite filter_app, app_length. destruct s; cbn; lia. Qed.
Lemma gives_append tp cp n b arg : gives (fun r => match r with Some b' => n_http (b_chain b') = n_http (b_chain b) + args_http tp [arg] | None => True end) (append_store_from_arg E tp cp n b arg).
Proof.
  unfold append_store_from_arg. eapply (gives_bind _ _ (fun r => match r with Some (s, t) => (match s with SHttp _ => 1 | _ => 0 end) = args_http tp [arg] | None => True end)).
  - unfold args_http, arg_http. cbn [filter]. destruct (classify_arg tp arg) as [|url|path ip].
    + skip_bind. destruct a as [[] t]; now apply gives_ret.
    + skip_bind. destruct a; now apply gives_ret.
    + skip_bind. destruct a; now apply gives_ret.
  - intros [[s t]|] Hr; [|now apply gives_ret]. unfold store_chain_append. cbv zeta.
    eapply (gives_bind _ _ (fun r => fst (fst r) = true -> snd r = b_chain b ++ [mkSub s true])).
    + skip_bind. destruct (negb a); [apply gives_ret; discriminate|]. destruct (_ <=? _); [apply gives_ub|]. now apply gives_ret.
    + intros [[ok space] chain] Hok. cbn [fst snd] in Hok. destruct ok; apply gives_ret; [|exact Logic.I]. cbn [b_chain]. rewrite (Hok eq_refl), n_http_snoc. lia.
Qed.
Lemma args_http_cons tp a l : args_http tp (a :: l) = args_http tp [a] + args_http tp l.
Proof. unfold args_http. cbn [filter]. destruct (arg_http tp a); cbn [length]; lia. Qed.
Definition grown (tp : bytes) (args : list bytes) (b b' : building) : Prop := n_http (b_chain b') <= n_http (b_chain b) + args_http tp args.
Lemma gives_appends tp cp n : forall args b, gives (fun r => match r with Some b' => grown tp args b b' | None => True end) (append_stores E tp cp n b args).
Proof.
  induction args as [|a args IH]; intros b; cbn [append_stores]; [apply gives_ret; unfold grown; lia|].
  eapply gives_bind; [apply gives_append|]. intros [b'|] Hb; [|now apply gives_ret]. eapply gives_mono; [|apply IH].
  intros [b2|]; [|auto]. unfold grown. rewrite (args_http_cons tp a args). lia.
Qed.
Lemma gives_opts tp cp n : forall os b, gives (fun r => match r with OptsDone b' | OptsHelp b' => grown tp (store_opts os) b b' | _ => True end) (casync_opts E tp cp n b os).
Proof.
  induction os as [|o os IH]; intros b; cbn [casync_opts]; [apply gives_ret; unfold grown; lia|]. destruct o.
  - apply gives_ret. unfold grown. lia.
  - eapply gives_bind; [apply gives_append|]. intros [b'|] Hb; [|now apply gives_ret]. eapply gives_mono; [|apply IH].
    intros [b2|b2| |]; auto; unfold grown; change (store_opts (OptStore arg :: os)) with (arg :: store_opts os); rewrite (args_http_cons tp arg (store_opts os)); lia.
  - apply IH.
  - now apply gives_ret.
Qed.

Lemma frame_opts' S tp cp n : forall os b, frame S (fun t => f t = 0) (casync_opts E tp cp n b os).
Proof.
  induction os as [|o os IH]; intros b; cbn [casync_opts]; [apply frame_ret|]. destruct o; auto; try apply frame_ret.
  apply frame_bind; [apply frame_append_store; exact Fscan|]. intros [b'|]; [apply IH|apply frame_ret].
Qed.
Lemma load_header_room ino w p n w' : caibx_load_header E ino w = (Ok (Some (p, n)), w') -> n = (blen (w_files w ino) - 104) / 40.
Proof.
  unfold caibx_load_header. intros R. apply bind_ok in R as (s & w1 & R1 & R). destruct s as [size|]; [|discriminate R].
  assert (Hs : size = blen (w_files w ino)) by (unfold fd_size in R1; destruct (e_kind E ino); congruence). subst size.
  destruct (_ <? _); [discriminate R|]. destruct (negb _); [discriminate R|]. apply bind_ok in R as (q & w2 & R2 & R). destruct q as [q|]; [|discriminate R].
  apply bind_ok in R as (ok & w3 & R3 & R). destruct (negb ok); [discriminate R|]. apply bind_ok in R as (ok' & w4 & R4 & R). destruct ok'; [|discriminate R].
  assert (X : Some (q, (blen (w_files w ino) - CA_HEADER_LEN - CA_TABLE_MIN_LEN) / CA_TABLE_ENTRY_LEN) = Some (p, n)) by (unfold ret in R; congruence).
  injection X as _ <-. unfold CA_HEADER_LEN, CA_TABLE_MIN_LEN, CA_TABLE_HEADER_LEN, CA_TABLE_ENTRY_LEN. f_equal. lia.
Qed.

Definition init_fine (argv : list bytes) (w : world) (x : outcome init_res * world) : Prop :=
  spent 0 w (snd x) /\ match fst x with
    | Ok (InitOk su) => su_n su = room E argv w /\ forall l, su_store su = Some l -> n_http l <= http_stores argv
    | _ => True end.
Lemma init_fine_header argv w ino (k : option (params * N) -> M init_res) : e_open E (cmd_index argv) = Some ino ->
  weigh 0 any (k None) -> (forall p n, weigh 0 (fun r => match r with InitOk su => su_n su = n /\ forall l, su_store su = Some l -> n_http l <= http_stores argv | _ => True end) (k (Some (p, n)))) ->
  (forall w0, match fst (k None w0) with Ok (InitOk _) => False | _ => True end) -> init_fine argv w ((h <- caibx_load_header E ino ;; k h) w).
Proof.
  intros Ho Hn Hk Hx. pose proof (weigh_frame _ everywhere _ (frame_load_header everywhere (fun t => f t = 0) E ino) w) as (L1 & _). unfold bind, init_fine.
  destruct (caibx_load_header E ino w) as [[[[p n]|]| | |] w1] eqn:R; cbn [fst snd] in *; try (split; [exact L1|exact Logic.I]).
  - apply load_header_room in R. destruct (Hk p n w1) as (K1 & K2). split; [apply (spent_trans 0 0 _ w1 _ L1 K1)|]. destruct (fst (k (Some (p, n)) w1)) as [[su| |]| | |]; auto.
    destruct K2 as (K2 & K3). split; [|exact K3]. unfold room. now rewrite Ho, K2.
  - destruct (Hn w1) as (K1 & _). split; [apply (spent_trans 0 0 _ w1 _ L1 K1)|]. specialize (Hx w1). destruct (fst (k None w1)) as [[su| |]| | |]; auto. contradiction.
Qed.
Lemma init_counts argv w : init_fine argv w (init E argv w).
Proof.
  assert (Fail : forall r w', w_trace w' = w_trace w -> (forall su, r <> InitOk su) -> init_fine argv w (ret r w')).
  { intros r w' Ht Hr. split; [exists []; cbn; split; [exact Ht|lia]|]. cbn. destruct r; auto. destruct (Hr s eq_refl). }
  unfold init. destruct (beq (basename (nth 0 argv [])) (bs "csn")) eqn:Ec; [|destruct (beq (basename (nth 0 argv [])) (bs "casync"))].
  - assert (Et : cmd_target argv = nth 2 argv [] /\ cmd_index argv = nth 1 argv [] /\ cmd_stores argv = skipn 3 argv) by (unfold cmd_target, cmd_index, cmd_stores, is_csn; now rewrite Ec).
    destruct Et as (Et & Ei & Es). unfold csn. destruct argv as [|a0 [|a1 [|a2 [|a3 args]]]]; try (apply Fail; [reflexivity|discriminate]).
    cbn [nth] in Et, Ei. unfold bind at 1.
    match goal with |- context [match ?k w with _ => _ end] => assert (Kc : exists b wk, k w = (Ok b, wk) /\ w_trace wk = w_trace w /\ forall i, w_files wk i = w_files w i) end.
    { destruct (e_getenv E _); [|eexists _, _; repeat split]. unfold sha_kcapi_init. destruct (e_kcapi_ok E); eexists _, _; repeat split. }
    destruct Kc as (b & wk & -> & Hk & Hf). cbv beta iota. destruct b; [|apply Fail; [exact Hk|discriminate]]. cbn [negb].
    destruct (e_open E a1) as [ino|] eqn:Eo; [|apply Fail; [exact Hk|discriminate]].
    match goal with |- init_fine ?av w ?x => assert (G : init_fine av wk x) end.
    { apply (init_fine_header _ wk ino (fun h => match h with None => ret InitFail | Some (cp, n) => _ end)).
      - now rewrite Ei.
      - now apply weigh_ret.
      - intros p n. cbv beta iota. apply (weigh_bind _ _ 0 0 any); [apply (weigh_frame _ everywhere), frame_target_new|]. intros [t|] _; [|now apply weigh_ret].
        apply (weigh_bind _ _ 0 0 any); [apply (weigh_frame _ everywhere), frame_chain_new|]. intros [sp|] _; [|now apply weigh_ret].
        eapply (weigh_bind _ _ 0 0); [eapply weigh_gives; [apply (weigh_frame _ everywhere), frame_append_stores, Fscan|apply gives_appends]|].
        intros [bd|] Hb; [|now apply weigh_ret]. apply weigh_ret. cbn [su_n su_store]. split; [reflexivity|]. intros l [= <-]. unfold grown in Hb. cbn [b_chain] in Hb.
        unfold n_http at 2 in Hb. cbn in Hb. unfold http_stores. rewrite Et, Es. exact Hb.
      - intros w0. exact Logic.I. }
    destruct G as ((tr & T1 & T2) & G2). split; [exists tr; split; [now rewrite T1, Hk|exact T2]|].
    match goal with |- match ?o with _ => _ end => destruct o as [[su| |]| | |] end; auto.
    destruct G2 as (G2 & G3). split; [|exact G3]. rewrite G2. unfold room. rewrite Ei. cbn [nth]. rewrite Eo. now rewrite Hf.
  - assert (Et : cmd_target argv = nth (length argv - 1) argv [] /\ cmd_index argv = nth (length argv - 2) argv [] /\ cmd_stores argv = store_opts (fst (getopt_all (skipn 1 argv)))) by (unfold cmd_target, cmd_index, cmd_stores, is_csn; now rewrite Ec).
    destruct Et as (Et & Ei & Es). unfold casync. cbv zeta. destruct (Nat.ltb _ 3); [apply Fail; [reflexivity|discriminate]|].
    destruct (e_open E (nth (length argv - 2) argv [])) as [ino|] eqn:Eo; [|apply Fail; [reflexivity|discriminate]].
    apply (init_fine_header _ w ino (fun h => match h with None => ret InitFail | Some (cp, n) => _ end)).
    + now rewrite Ei.
    + now apply weigh_ret.
    + intros p n. cbv beta iota. apply (weigh_bind _ _ 0 0 any); [apply (weigh_frame _ everywhere), frame_target_new|]. intros [t|] _; [|now apply weigh_ret].
      apply (weigh_bind _ _ 0 0 any); [apply (weigh_frame _ everywhere), frame_chain_new|]. intros [sp|] _; [|now apply weigh_ret].
      destruct (getopt_all (skipn 1 argv)) as [os ns] eqn:Eg. cbn [fst] in Es.
      eapply (weigh_bind _ _ 0 0); [eapply weigh_gives; [apply (weigh_frame _ everywhere), frame_opts'|apply gives_opts]|].
      intros [bd|bd| |] Hb; [| |now apply weigh_ret|now apply weigh_ret].
      * destruct (_ || _); [now apply weigh_ret|]. apply weigh_ret. cbn [su_n su_store]. split; [reflexivity|]. intros l [= <-]. unfold grown in Hb. cbn [b_chain] in Hb.
        unfold n_http at 2 in Hb. cbn in Hb. unfold http_stores. rewrite Et, Es. exact Hb.
      * apply weigh_ret. cbn [su_n su_store]. split; [reflexivity|discriminate].
    + intros w0. exact Logic.I.
  - apply Fail; [reflexivity|discriminate].
Qed.
Lemma weigh_main argv w : spent (W * (http_stores argv * room E argv w)) w (snd (main E argv w)).
Proof.
  rewrite main_init. destruct (init_counts argv w) as (L1 & L2). unfold bind. destruct (init E argv w) as [[[su| |c]| | |] w1]; cbn [fst snd] in *;
    try (eapply spent_le; [exact L1|lia]; fail).
  destruct L2 as (N1 & N2). destruct (weigh_run su (http_stores argv) N2 w1) as (R1 & _). rewrite N1 in R1.
  eapply spent_le; [apply (spent_trans _ _ _ _ _ L1 R1)|lia].
Qed.
End Weigh.

(** ** One request *)
Definition f_perf (t : tev) : N := match t with TPerform _ => 1 | _ => 0 end.
Definition f_sleep (t : tev) : N := match t with TSleep us => us | _ => 0 end.
Lemma performs_weight tr : performs tr = weight f_perf tr.
Proof. induction tr as [|[] tr IH]; cbn [performs weight f_perf]; lia. Qed.
Lemma slept_weight tr : slept tr = weight f_sleep tr.
Proof. induction tr as [|[] tr IH]; cbn [slept weight f_sleep]; lia. Qed.
Section Request.
Variables (f : tev -> N) (p : N).
Hypothesis (Fp : forall u, f (TPerform u) = p).
Variable E : env.
Lemma weigh_perform u r : weigh f p any (curl_easy_perform E u r).
Proof.
  intros w. split; [|match goal with |- match ?o with _ => _ end => destruct o end; exact Logic.I]. unfold curl_easy_perform. cbv zeta.
  set (pf := e_server E u (w_nperf w)). set (w1 := add_trace (TPerform u) (set_nperf (S (w_nperf w)) w)).
  assert (G : frame everywhere (fun t => f t = 0) ('(c, r0) <- curl_deliver E (p_code pf) (p_segs pf) (p_end pf) r ;; ret (c, p_code pf, r0))) by (framer; apply frame_deliver).
  destruct (weigh_frame f _ everywhere _ G w1) as ((tr & T1 & T2) & _). exists (tr ++ [TPerform u]). rewrite T1, weight_app. cbn [weight]. rewrite Fp.
  split; [now rewrite <- app_assoc|lia].
Qed.
(** The delays of [rem] tries, the first being [us]. *)
Fixpoint delays (rem : nat) (us : N) : N := match rem with O => 0 | S k => p + f (TSleep us) + delays k (N.min ((2 * us) mod M32) 10000000) end.
Lemma weigh_retried u : forall rem us r, weigh f (delays rem us) any (retried_curl_easy_perform E u rem us r).
Proof.
  induction rem as [|rem IH]; intros us r; cbn [retried_curl_easy_perform delays]; [apply weigh_halt|].
  replace (p + f (TSleep us) + delays rem (N.min ((2 * us) mod M32) 10000000)) with (p + (f (TSleep us) + delays rem (N.min ((2 * us) mod M32) 10000000))) by lia.
  eapply weigh_bind; [apply weigh_perform|]. intros [[c code] r'] _. destruct (negb _); [now apply weigh_ret_any|].
  eapply weigh_bind; [apply weigh_trace|]. intros _ _. cbv zeta. destruct rem; [now apply weigh_ret_any|]. apply IH.
Qed.
Lemma weigh_request hs id out : weigh f (delays 10 200000) any (store_http_get_chunk E hs id out).
Proof.
  unfold store_http_get_chunk. change (delays 10 200000) with (0 + delays 10 200000). apply (weigh_bind _ _ _ 0 _ any); [apply (weigh_frame _ _ everywhere); unfold set_url; framer|].
  intros [url|] _; [|now apply weigh_ret_any]. change (delays 10 200000) with (0 + delays 10 200000).
  apply (weigh_bind _ _ _ 0 _ any); [apply (weigh_frame _ _ everywhere); framer|]. intros a _. destruct (negb a); [now apply weigh_ret_any|]. cbv zeta.
  replace (delays 10 200000) with (delays 10 200000 + 0) by lia. eapply weigh_bind; [apply weigh_retried|]. intros [[c code] r] _.
  apply (weigh_frame _ _ everywhere). framer.
Qed.
End Request.

Lemma transfers_bounded E argv w : let n := http_stores argv * room E argv w in
  exists tr, run_trace w (snd (main E argv w)) tr /\ performs tr <= 10 * n /\ slept tr <= 52600000 * n.
Proof.
  cbv zeta. destruct (weigh_main f_perf ltac:(reflexivity) ltac:(reflexivity) ltac:(reflexivity) ltac:(reflexivity) ltac:(reflexivity) ltac:(reflexivity) E 10
    (weigh_request f_perf 1 ltac:(reflexivity) E) argv w) as (tr & T1 & T2).
  destruct (weigh_main f_sleep ltac:(reflexivity) ltac:(reflexivity) ltac:(reflexivity) ltac:(reflexivity) ltac:(reflexivity) ltac:(reflexivity) E 52600000
    (weigh_request f_sleep 0 ltac:(reflexivity) E) argv w) as (tr' & T3 & T4).
  assert (tr' = tr) by (rewrite T1 in T3; now apply app_inv_tail in T3). subst tr'. exists tr. rewrite performs_weight, slept_weight. auto.
Qed.
