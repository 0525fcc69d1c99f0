(** No undefined behaviour at all (C53): the indices of the local stores are never freed twice. *)
From Verif Require Import Base Lib Utils Sha Chunker Caibx Index StoreLocal Target StoreHttp Chain Ui MainProg
  SpecBasic SpecEnv SpecStore SpecHttp SpecCaibx SpecMain SpecRun SpecMemory
  PfUtils PfBasic PfIO PfFrame PfLocal PfChain PfMain PfMain2 PfSetup PfRun PfReadonly.
Local Open Scope N_scope.

Lemma gives_mono A (J K : A -> Prop) m : (forall a, J a -> K a) -> gives J m -> gives K m.
Proof. intros H G w. specialize (G w). destruct (m w) as [[a| | |] w']; auto. Qed.
Lemma gives_fun A (K : A -> Prop) (m : world -> M A) : (forall w0, gives K (m w0)) -> gives K (fun w => m w w).
Proof. intros H w. apply H. Qed.
Lemma gives_abort A (K : A -> Prop) : gives K abort. Proof. intros w. exact Logic.I. Qed.
Lemma gives_halt A (K : A -> Prop) : gives K halt. Proof. intros w. exact Logic.I. Qed.
Lemma wp_gives A (K : A -> Prop) m (Q : A -> world -> Prop) (R : bad -> world -> Prop) w : gives K m -> wp m Q R w -> wp m (fun a w' => K a /\ Q a w') R w.
Proof. intros G H. specialize (G w). unfold wp in *. destruct (m w) as [[a| | |] w']; auto. Qed.

(** ** Generic loops *)
Section Loops.
Context {A : Type}.
Variables (cb : N -> N -> bytes -> A -> M (bool * A)) (K : A -> Prop).
Hypothesis Hcb : forall o l i a, K a -> gives (fun r => K (snd r)) (cb o l i a).
Lemma gives_scan_buf E : forall fuel buf st, K (sc_arg st) -> gives (fun r => K (sc_arg (snd r))) (scan_buf cb E fuel buf st).
Proof.
  induction fuel as [|fuel IH]; intros buf st H; cbn [scan_buf]; [apply gives_halt|]. destruct buf; [now apply gives_ret|].
  skip_bind. destruct a as [[n0|] c]; [|now apply gives_ret].
  eapply gives_bind; [apply Hcb, H|]. intros [ok a] Ha. cbn [snd] in Ha. destruct (negb ok); [now apply gives_ret|]. apply IH. exact Ha.
Qed.
Lemma gives_scan_reads E ino : forall fuel pos st, K (sc_arg st) -> gives (fun r => K (sc_arg (snd r))) (scan_reads cb E fuel ino pos st).
Proof.
  induction fuel as [|fuel IH]; intros pos st H; cbn [scan_reads]; [apply gives_halt|]. skip_bind. destruct a as [[|x d]| |]; try (now apply gives_ret); [|now apply IH].
  eapply gives_bind; [apply gives_scan_buf, H|]. intros [ok st'] Ha. cbn [snd] in Ha. destruct (negb ok); [now apply gives_ret|]. apply IH. exact Ha.
Qed.
Lemma gives_scan_fd E ino p a : K a -> gives (fun r => K (snd r)) (chunker_scan_fd cb E ino p a).
Proof.
  intros H. unfold chunker_scan_fd. skip_bind. eapply (gives_bind _ _ (fun r => K (sc_arg (snd r)))).
  { apply (gives_fun _ _ (fun w1 => scan_reads cb E (S (length (w_io w1))) ino 0 (mkScan a0 0 0 a))). intros w0. apply gives_scan_reads. exact H. }
  intros [ok st] Ha. cbn [snd] in Ha. destruct (negb ok); [now apply gives_ret|]. destruct (_ =? _); [now apply gives_ret|]. apply Hcb, Ha.
Qed.
Lemma gives_iterate ino p n : forall k i last a, K a -> gives (fun r => K (snd r)) (iterate_loop cb ino p n k i last a).
Proof.
  induction k as [|k IH]; intros i last a H; cbn [iterate_loop]; [now apply gives_ret|]. skip_bind. destruct a0 as [ok buf]. destruct (negb ok); [now apply gives_ret|].
  destruct (_ && _); [now apply IH|]. eapply gives_bind; [apply Hcb, H|]. intros [ok' a'] Ha. cbn [snd] in Ha. destruct (negb ok'); [now apply gives_ret|]. now apply IH.
Qed.
End Loops.

(** ** Local stores *)
Definition unfreed (x : index) : Prop := ix_ptr x <> PFreed.
Lemma or_flags_ptr x pos f : ix_ptr (index_or_flags x pos f) = ix_ptr x.
Proof. unfold index_or_flags. now destruct (nth_error _ _). Qed.
Lemma gives_insert flags o l i x : unfreed x -> gives (fun r => unfreed (snd r)) (store_insert_index flags o l i x).
Proof.
  intros H. unfold store_insert_index. eapply (gives_bind _ _ (fun r => unfreed (snd r))).
  - unfold index_insert. skip_bind. destruct (ix_ptr x); [apply gives_abort| |apply gives_ub]. skip_bind. destruct (negb _); [now apply gives_ret|].
    destruct (_ <? _); [apply gives_ub|]. apply gives_ret. discriminate.
  - intros [[pos|] x'] Hx; cbn [snd] in Hx; apply gives_ret; [|exact Hx]. unfold unfreed. cbn [snd]. now rewrite or_flags_ptr.
Qed.
Lemma gives_init_index x n : gives (fun r => unfreed (snd r)) (index_init x n).
Proof. unfold index_init. skip_bind. skip_bind. destruct a0; apply gives_ret; discriminate. Qed.

Section Stores.
Variable E : env.
Definition plain (ls : lstore) : Prop := e_kind E (ls_ino ls) <> KOther /\ unfreed (ls_idx ls).

Lemma gives_scan ls : gives (fun r => ls_ino (snd r) = ls_ino ls /\ (fst r = true -> e_kind E (ls_ino ls) <> KOther) /\
  (e_kind E (ls_ino ls) <> KOther \/ fst r = true -> unfreed (ls_idx (snd r)))) (store_scan E ls).
Proof.
  unfold store_scan. skip_bind. eapply (gives_bind _ _ (fun s => s = None <-> e_kind E (ls_ino ls) = KOther)).
  { intros w. unfold fd_size. destruct (e_kind E (ls_ino ls)); split; congruence. }
  intros [size|] Hs.
  - eapply gives_bind; [apply gives_init_index|]. intros [ok x] Hx. cbn [snd] in Hx.
    assert (Hk : e_kind E (ls_ino ls) <> KOther) by (intros C; apply Hs in C; discriminate).
    destruct (negb ok); [apply gives_ret; cbn; auto|]. eapply gives_bind; [apply (gives_scan_fd _ unfreed (gives_insert _)), Hx|].
    intros [ok' x'] Hx'. apply gives_ret. cbn in *. auto.
  - apply gives_ret. cbn. split; [reflexivity|]. split; [discriminate|]. intros [H|H]; [destruct (H ltac:(now apply Hs))|discriminate].
Qed.
Lemma query_ptr x id : gives (fun r => ix_ptr (snd r) = ix_ptr x) (index_query E x id).
Proof. unfold index_query. destruct (ix_ptr x) eqn:P, (ix_entries x); try apply gives_ub; apply gives_ret; cbn [snd]; destruct (ix_sorted x); auto. Qed.
Lemma gives_local_loop id : forall fuel ls out, plain ls -> gives (fun r => plain (snd r)) (local_get_loop E fuel ls id out).
Proof.
  induction fuel as [|fuel IH]; intros ls out (H1 & H2); cbn [local_get_loop]; [apply gives_halt|].
  eapply gives_bind; [apply query_ptr|]. intros [r x] Hx. cbn [snd] in Hx.
  assert (Hp : plain (set_idx ls x)) by (split; [exact H1|unfold unfreed in *; cbn; congruence]).
  destruct r as [pos|]; [|now apply gives_ret]. skip_bind. destruct (_ <? _); [now apply gives_ret|]. skip_bind. destruct a0 as [ok data].
  destruct (negb ok); [now apply gives_ret|]. destruct (negb _); [now apply gives_ret|]. skip_bind. destruct (beq _ _).
  - apply gives_ret. split; [exact H1|]. unfold unfreed in *. cbn. rewrite or_flags_ptr. congruence.
  - skip_bind. eapply gives_bind; [apply gives_scan|]. intros [ok' ls'] (A & B & C). cbn in A, B, C.
    assert (Hp' : plain ls') by (split; [now rewrite A|apply C; now left]). destruct (negb ok'); [now apply gives_ret|]. now apply IH.
Qed.
Lemma gives_local_get ls id out : plain ls -> gives (fun r => plain (snd r)) (store_local_get_chunk E ls id out).
Proof. intros H. apply (gives_fun _ _ (fun w1 => local_get_loop E (S (length (w_io w1))) ls id out)). intros w0. now apply gives_local_loop. Qed.

(** A store with an index of its own may be a special file; without one it cannot be opened. *)
Lemma gives_local_new path ip cp : gives (fun r => match r with Some ls => e_open E path = Some (ls_ino ls) /\ unfreed (ls_idx ls) /\ (ip = None -> e_kind E (ls_ino ls) <> KOther) | None => True end)
  (store_local_new E path ip cp).
Proof.
  unfold store_local_new. skip_bind. destruct (negb a); [now apply gives_ret|]. destruct (e_open E path) as [ino|] eqn:Eo; [|now apply gives_ret].
  eapply (gives_bind _ _ (fun r => ls_ino (snd r) = ino /\ (fst r = true -> ip <> None /\ unfreed (ls_idx (snd r))))).
  - destruct ip as [ip|]; [|apply gives_ret; split; [reflexivity|discriminate]].
    unfold store_sideload_index. destruct (e_open E ip); [|apply gives_ret; split; [reflexivity|discriminate]].
    skip_bind. destruct a0 as [[p n0]|]; [|apply gives_ret; split; [reflexivity|discriminate]].
    destruct (negb _); [apply gives_ret; split; [reflexivity|discriminate]|]. eapply gives_bind; [apply gives_init_index|]. intros [ok x] Hx. cbn [snd] in Hx.
    destruct (negb ok); [apply gives_ret; split; [reflexivity|discriminate]|].
    eapply gives_bind; [apply (gives_iterate _ unfreed (gives_insert _)), Hx|]. intros [ok' x'] Hx'. cbn [snd] in Hx'. destruct (negb ok').
    + skip_bind. apply gives_ret. split; [reflexivity|discriminate].
    + apply gives_ret. split; [reflexivity|]. split; [discriminate|exact Hx'].
  - intros [loaded ls] (A & B). cbn [fst snd] in A, B. destruct loaded.
    + apply gives_ret. destruct (B eq_refl) as (B1 & B2). split; [congruence|]. split; [exact B2|congruence].
    + eapply gives_bind; [apply gives_scan|]. intros [ok ls'] (C1 & C2 & C3). cbn [fst snd] in *. apply gives_ret. destruct ok; [|exact Logic.I].
      split; [congruence|]. split; [auto|]. intros _. rewrite C1. auto.
Qed.

Definition plain_sub (ss : substore) : Prop := match ss_store ss with SLocal ls => plain ls | _ => True end.
Definition plain_store (s : store) : Prop := match s with SLocal ls => plain ls | _ => True end.
Lemma gives_plain_store s t id out : plain_store s -> gives (fun r => plain_store (snd (fst r))) (store_get_chunk E s t id out).
Proof.
  intros H. destruct s; cbn [store_get_chunk].
  - eapply gives_bind; [apply gives_local_get, H|]. intros [[r o] ls'] Hl. now apply gives_ret.
  - skip_bind. destruct a as [[r o] hs']. now apply gives_ret.
  - skip_bind. destruct a as [[r o] t']. now apply gives_ret.
Qed.
Lemma gives_plain_chain id : forall l i t out, Forall plain_sub l -> gives (fun r => Forall plain_sub (snd (fst r))) (chain_loop E i l t id out).
Proof.
  induction l as [|ss l IH]; intros i t out H; cbn [chain_loop]; [now apply gives_ret|]. inversion H as [|? ? H1 H2]; subst. destruct (negb _).
  - eapply gives_bind; [apply IH, H2|]. intros [[[r o] l'] t'] Hl. apply gives_ret. cbn in *. auto.
  - skip_bind. eapply gives_bind; [apply gives_plain_store, H1|]. intros [[[r o] s] t'] Hs. cbn [fst snd] in Hs. skip_bind.
    assert (K : forall x, gives (fun r => Forall plain_sub (snd (fst r))) ('(r, out, l', t) <- chain_loop E (S i) l t' id o;; ret (r, out, mkSub s x :: l', t))).
    { intros x. eapply gives_bind; [apply IH, H2|]. intros [[[r2 o2] l2] t2] Hl. apply gives_ret. cbn in *. auto. }
    destruct r as [n|]; [destruct (0 <? n)|]; auto. apply gives_ret. cbn. auto.
Qed.
Definition plain_state (st : mstate) : Prop := forall l, m_store st = Some l -> Forall plain_sub l.
Lemma gives_plain_progress n st : plain_state st -> gives (fun r => plain_state (snd r)) (entry_progress E n st).
Proof. intros H. unfold entry_progress. destruct (e_interactive E); [|now apply gives_ret]. skip_bind. now apply gives_ret. Qed.
Lemma gives_plain_fetch n o l i st : plain_state st -> gives (fun r => plain_state (snd r)) (entry_fetch_write E n o l i st).
Proof.
  intros H. unfold entry_fetch_write. eapply (gives_bind _ _ (fun r => plain_state (snd r))).
  - destruct (match m_last_id st with Some l0 => beq l0 i | None => false end); [now apply gives_ret|]. destruct (m_store st) as [chain|] eqn:Es; [|apply gives_ub].
    eapply gives_bind; [apply gives_plain_chain, H, Es|]. intros [[[r b] ch] t] Hc. cbn [fst snd] in Hc.
    assert (G : forall st', m_store st' = Some ch -> plain_state st') by (intros st' X l0 Y; congruence).
    destruct (match r with Some n0 => n0 =? l | None => false end); apply gives_ret; apply G; reflexivity.
  - intros [ok st'] Hs. cbn [snd] in Hs. destruct (negb ok); [now apply gives_ret|]. skip_bind. destruct a as [ok' t]. destruct (negb ok'); [now apply gives_ret|]. now apply gives_plain_progress.
Qed.
Lemma gives_plain_entry n o l i st : plain_state st -> gives (fun r => plain_state (snd r)) (entry_cb E n o l i st).
Proof.
  intros H. unfold entry_cb. destruct (m_resuming st); [|now apply gives_plain_fetch]. destruct (_ <? _); [now apply gives_ret|]. skip_bind.
  destruct a as [[[[]|] b] t]; [apply gives_plain_progress|apply gives_plain_fetch..]; exact H.
Qed.

(** ** Setting up *)
Lemma gives_append tp cp n bd arg : special_free E tp [arg] -> Forall plain_sub (b_chain bd) ->
  gives (fun r => match r with Some bd' => Forall plain_sub (b_chain bd') | None => True end) (append_store_from_arg E tp cp n bd arg).
Proof.
  intros Hsp H. unfold append_store_from_arg.
  eapply (gives_bind _ _ (fun r => match r with Some (s, _) => plain_store s | None => True end)).
  - destruct (classify_arg tp arg) as [|url|path ip] eqn:Ec.
    + skip_bind. destruct a as [ok t]. apply gives_ret. now destruct ok.
    + skip_bind. apply gives_ret. now destruct a.
    + eapply gives_bind; [apply gives_local_new|]. intros [ls|] Hl; apply gives_ret; [|exact Logic.I]. destruct Hl as (A & B & C). split; [|exact B].
      destruct ip as [ip|]; [|now apply C]. eapply Hsp; [now left|exact Ec|exact A].
  - intros [[s t]|] Hs; [|now apply gives_ret]. unfold store_chain_append. eapply (gives_bind _ _ (fun r => Forall plain_sub (snd r))).
    + skip_bind. destruct (negb a); [now apply gives_ret|]. destruct (_ <=? _); [apply gives_ub|]. apply gives_ret. cbn. apply Forall_app. auto.
    + intros [[ok sp] ch] Hc. apply gives_ret. now destruct ok.
Qed.
Lemma special_free_cons tp a args : special_free E tp (a :: args) -> special_free E tp [a] /\ special_free E tp args.
Proof. intros H. split; intros arg path ip ino Hin; apply H; [destruct Hin as [->|[]]; now left|now right]. Qed.
Lemma gives_append_stores tp cp n : forall args bd, special_free E tp args -> Forall plain_sub (b_chain bd) ->
  gives (fun r => match r with Some bd' => Forall plain_sub (b_chain bd') | None => True end) (append_stores E tp cp n bd args).
Proof.
  induction args as [|a args IH]; intros bd Hsp H; cbn [append_stores]; [now apply gives_ret|]. apply special_free_cons in Hsp as (S1 & S2).
  eapply gives_bind; [apply gives_append; eauto|]. intros [bd'|] Hb; [now apply IH|now apply gives_ret].
Qed.
Lemma gives_opts tp cp n : forall os bd, special_free E tp (store_opts os) -> Forall plain_sub (b_chain bd) ->
  gives (fun r => match r with OptsDone bd' => Forall plain_sub (b_chain bd') | _ => True end) (casync_opts E tp cp n bd os).
Proof.
  induction os as [|o os IH]; intros bd Hsp H; cbn [casync_opts]; [now apply gives_ret|]. destruct o as [|a| |]; try (now apply gives_ret).
  - cbn [store_opts flat_map app] in Hsp. apply special_free_cons in Hsp as (S1 & S2).
    eapply gives_bind; [apply gives_append; eauto|]. intros [bd'|] Hb; [now apply IH|now apply gives_ret].
  - now apply IH.
Qed.
Lemma gives_plain_init argv : special_free E (cmd_target argv) (cmd_stores argv) ->
  gives (fun r => match r with InitOk su => forall l, su_store su = Some l -> Forall plain_sub l | _ => True end) (init E argv).
Proof.
  intros Hsp. unfold init, cmd_target, cmd_stores, is_csn in *. destruct (beq _ (bs "csn")) eqn:Ea.
  - unfold csn. destruct argv as [|a0 [|ip [|tp [|a3 args]]]]; try (now apply gives_ret). skip_bind. destruct (negb a); [now apply gives_ret|].
    destruct (e_open E ip); [|now apply gives_ret]. skip_bind. destruct a1 as [[cp n0]|]; [|now apply gives_ret]. skip_bind. destruct a1 as [t|]; [|now apply gives_ret].
    skip_bind. destruct a1 as [sp|]; [|now apply gives_ret]. eapply gives_bind; [apply gives_append_stores; [exact Hsp|constructor]|].
    intros [bd|] Hb; [|now apply gives_ret]. apply gives_ret. cbn. intros l [= <-]. exact Hb.
  - destruct (beq _ (bs "casync")); [|now apply gives_ret]. unfold casync. cbv zeta. destruct (Nat.ltb _ _); [now apply gives_ret|].
    destruct (e_open E _); [|now apply gives_ret]. skip_bind. destruct a as [[cp n0]|]; [|now apply gives_ret]. skip_bind. destruct a as [t|]; [|now apply gives_ret].
    skip_bind. destruct a as [sp|]; [|now apply gives_ret]. destruct (getopt_all (skipn 1 argv)) as [os ns] eqn:Eg. cbn [fst] in Hsp.
    eapply gives_bind; [apply gives_opts; [exact Hsp|constructor]|]. intros [bd|bd| |] Hb; try (now apply gives_ret). 
    destruct (_ || _); [now apply gives_ret|]. apply gives_ret. cbn. intros l [= <-]. exact Hb.
Qed.
End Stores.

(** ** The end of a run *)
Lemma free_fine E l : Forall (plain_sub E) l -> forall w (R : bad -> world -> Prop), wp (store_chain_free l) (fun _ _ => True) R w.
Proof.
  induction 1 as [|ss l H _ IH]; intros w R; cbn [store_chain_free]; [now apply wp_ret|]. unfold plain_sub in H. destruct (ss_store ss) as [ls| |]; [|apply IH..].
  apply wp_bind. unfold store_local_free, index_cleanup. apply wp_bind. destruct H as (_ & H). unfold unfreed in H. destruct (ix_ptr (ls_idx ls)); [apply wp_ret, wp_ret, IH..|congruence].
Qed.
Section NoUB.
Variables (E : env) (argv : list bytes) (w : world).
Hypothesis (HS : sane E argv w) (HG : good_index E argv w) (Hsp : special_free E (cmd_target argv) (cmd_stores argv)).
Lemma run_sync_defined wk su w1 : started w wk -> ready E false argv w wk su w1 -> (forall l, su_store su = Some l -> Forall (plain_sub E) l) ->
  wp (run_sync E su) (fun _ _ => True) (fun bd _ => bd <> BUB) w1.
Proof.
  intros Hk HR Hpl. pose proof (ready_files _ _ _ _ _ _ _ Hk HR) as Hfil. pose proof (ready_initial _ _ _ _ _ _ _ HS Hk HR) as HM.
  cbv zeta in HM. destruct HS as [HE Hsv Hes Hf Hargs Hhelp Hix Hal Hd]. pose proof HR as HR0.
  destruct HR as [R1 R2 R3 R4 R5 R6 R7 R8].
  set (f := w_files w (su_index su)) in *. set (n := N.to_nat (su_n su)) in *. set (tino := t_ino (su_target su)) in *.
  assert (Hn : su_n su = N.of_nat n) by (unfold n; lia).
  unfold run_sync. rewrite Hn at 1. apply wp_bind. rewrite Hn.
  assert (G : gives (fun r => plain_state E (snd r)) (caibx_iterate_entries (entry_cb E (N.of_nat n)) (su_index su) (su_params su) (N.of_nat n) (initial_mstate su))).
  { unfold caibx_iterate_entries. apply (gives_iterate _ (plain_state E)); [intros; now apply gives_plain_entry|exact Hpl]. }
  eapply wp_mono; [eapply (wp_gives _ _ _ _ _ _ G); apply (sync_all E false f n tino (su_index su) (su_params su) w1 HE Hsv (HG _ _ _ R2 R4))|..].
  - apply Hf.
  - eapply valid_length; eauto.
  - apply Hf.
  - intros Heq. apply (Hix tino R3). rewrite R2. congruence.
  - apply Hfil.
  - exact HM.
  - reflexivity.
  - intros [ok st] w2 (Hp & H). cbn [fst snd] in H, Hp. destruct ok; cbn [negb]; [|now apply wp_ret].
    destruct H as (last & HI). pose proof HI as ((_ & HC & _) & _). destruct (mi_chain _ _ _ _ _ _ _ _ _ HC) as (l & Hl & _). rewrite Hl.
    apply wp_bind. eapply wp_mono; [apply (free_fine E l (Hp l Hl))| |intros ? ? X; exact X]. intros _ w3 _. now apply wp_ret.
  - intros bd w2 (Hb & _). exact Hb.
Qed.
Theorem no_undefined : fst (main E argv w) <> UB.
Proof.
  assert (G : wp (main E argv) (fun _ _ => True) (fun bd _ => bd <> BUB) w).
  { rewrite main_init. apply wp_bind. eapply wp_mono; [eapply (wp_gives _ _ _ _ _ _ (gives_plain_init E argv Hsp)); apply (wp_init E false argv w HS); discriminate| |].
    - intros [su| |c] w1 (Hp & wk & Hk & _ & H); [|now apply wp_ret..]. eapply run_sync_defined; eauto.
    - intros bd w1 (Hbd & _). exact Hbd. }
  unfold wp in G. destruct (main E argv w) as [[c| | |] w']; cbn; congruence.
Qed.
End NoUB.
