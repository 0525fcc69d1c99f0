(** Termination (C54): the main program. *)
From Verif Require Import Base Lib Utils Sha Encrypt Chunker Caibx Index StoreLocal Target StoreHttp Chain Ui MainProg
  SpecBasic SpecEnv SpecRun SpecLive PfUtils PfBasic PfIO PfReadonly PfMemory PfLive PfLive2 PfSetup.
Local Open Scope nat_scope.

Section Live.
Variables (E : env) (Z : nat -> N) (kc : bool).
Hypothesis (HE : env_ok E) (HZ : forall i, (OFF_LIMIT + BUF_SIZE <= Z i)%N) (Hkc : kc = false -> e_getenv E (bs "CSN_KCAPI_DRIVER") = None).
Notation cost := (PfLive.cost Z kc).
Notation inv := (PfLive.inv Z kc).
Ltac done := apply cost_le0; first [now apply cost_ret | apply cost_ub | apply cost_abort].
Ltac free := eapply cost_free; [first [apply cost_alloc | apply cost_trace | apply cost_assert]|]; let a := fresh "a" in intros a _.

(** ** Processing the entries *)
Variables (Smax L : nat).
Let cap := N.to_nat BUF_SIZE.
Definition state_ok (st : mstate) : Prop := length (m_buf st) = cap /\ forall l, m_store st = Some l -> Forall (small Z Smax) l /\ length l <= L.
Definition fetch_cost : nat := L * get_cost Smax cap + cap.
Definition entry_cost : nat := cap + (cap + 1) + fetch_cost.
Lemma cost_progress n st : state_ok st -> cost 0 (fun r => state_ok (snd r)) (entry_progress E n st).
Proof. intros H. unfold entry_progress. destruct (e_interactive E); [|done]. free. done. Qed.
Lemma cost_fetch n o l i st : state_ok st -> cost fetch_cost (fun r => state_ok (snd r)) (entry_fetch_write E n o l i st).
Proof.
  intros H. unfold entry_fetch_write, fetch_cost. eapply (cost_seq _ _ _ _ (L * get_cost Smax cap) cap _ (fun r => state_ok (snd r))); [| |lia].
  - destruct (match m_last_id st with Some l0 => beq l0 i | None => false end); [done|]. destruct (m_store st) as [ch|] eqn:Es; [|done]. destruct H as (H1 & H2). destruct (H2 ch Es) as (H3 & H4).
    eapply (cost_seq _ _ _ _ (L * get_cost Smax cap) 0).
    + eapply cost_le; [apply (cost_chain E Z kc HE Smax); exact H3| |intros a X; exact X]. rewrite H1. apply Nat.mul_le_mono_r, H4.
    + intros [[[r b] ch'] t] (A & B & C & _). cbn [fst snd] in *.
      assert (G : forall s, m_buf s = b -> m_store s = Some ch' -> state_ok s) by (intros s X Y; split; [rewrite X; congruence|]; intros l0 X2; rewrite Y in X2; injection X2 as <-; split; [exact B|lia]).
      destruct (match r with Some n0 => (n0 =? l)%N | None => false end); apply cost_ret; apply G; reflexivity.
    + lia.
  - intros [ok st'] Hs. cbn [snd] in Hs. destruct (negb ok); [done|].
    eapply (cost_seq _ _ _ _ (length (m_buf st')) 0); [apply cost_target_write; [exact HE|]| |destruct Hs as (X & _); rewrite X; lia].
    + destruct Hs as (X & _). unfold blen. rewrite X. unfold cap. rewrite N2Nat.id. apply HZ.
    + intros [ok' t] _. cbv zeta. destruct (negb ok'); [done|]. apply cost_progress. exact Hs.
Qed.
Lemma cost_entry n o l i st : state_ok st -> cost entry_cost (fun r => state_ok (snd r)) (entry_cb E n o l i st).
Proof.
  intros H. unfold entry_cb, entry_cost. destruct (m_resuming st); [|eapply cost_le; [apply cost_fetch, H|lia|auto]]. destruct (BUF_SIZE <? l)%N eqn:El; [done|]. pose proof H as (H1 & H2).
  eapply (cost_seq _ _ _ _ (cap + (cap + 1)) fetch_cost _ (fun r => length (snd (fst r)) = cap)); [|intros [[r b] t] A; cbn [fst snd] in A|lia].
  - rewrite <- H1. eapply cost_le; [apply (cost_check E Z kc HE)|apply Nat.le_refl|intros a (X & _); exact X]. rewrite H1. unfold cap. lia.
  - assert (G : forall s, m_buf s = b -> m_store s = m_store st -> state_ok s) by (intros s X Y; split; [rewrite X; exact A|]; rewrite Y; exact H2).
    destruct r as [[]|]; [apply cost_le0, cost_progress|apply cost_fetch..]; apply G; reflexivity.
Qed.
Lemma cost_free_chain : forall l, cost 0 any (store_chain_free l).
Proof.
  induction l as [|ss l IH]; cbn [store_chain_free]; [done|]. destruct (ss_store ss); [|exact IH..]. eapply cost_free; [|intros; exact IH].
  unfold store_local_free. eapply cost_free; [apply cost_cleanup|]. intros. now apply (cost_ret _ _ _ any).
Qed.
Lemma cost_run su : (forall l, su_store su = Some l -> Forall (small Z Smax) l /\ length l <= L) -> cost (N.to_nat (su_n su) * (40 + entry_cost)) any (run_sync E su).
Proof.
  intros H. unfold run_sync. eapply (cost_seq _ _ _ _ _ 0).
  - unfold caibx_iterate_entries. apply (cost_iterate Z kc _ state_ok entry_cost); [intros; now apply cost_entry|]. split; [|exact H]. cbn. now rewrite repeat_length.
  - intros [ok st] _. destruct (negb ok); [done|]. destruct (m_store st); [|done]. eapply cost_free; [apply cost_free_chain|]. intros. done.
  - lia.
Qed.

(** ** Setting up *)
Definition build_ok (k : nat) (bd : building) : Prop := Forall (small Z Smax) (b_chain bd) /\ length (b_chain bd) <= k.
Definition sized (tp : bytes) (args : list bytes) : Prop := forall arg path ip, In arg args -> classify_arg tp arg = ArgLocal path ip -> path_size E Z path <= Smax.
Lemma cost_append tp arg : sized tp [arg] -> exists B, forall cp n k bd, build_ok k bd -> cost B (fun r => match r with Some bd' => build_ok (S k) bd' | None => True end) (append_store_from_arg E tp cp n bd arg).
Proof.
  intros Hs.
  assert (H : exists B, forall cp n bd, cost B (fun r => match r with Some (s, _) => forall b, small Z Smax (mkSub s b) | None => True end)
     (match classify_arg tp arg with
        | ArgTarget =>
            '(ok, t) <- target_as_store (b_target bd) n ;;
            ret (if (ok : bool) then Some (STarget, t) else None)
        | ArgHttp url =>
            h <- store_http_new E url ;;
            ret (match h with Some hs => Some (SHttp hs, b_target bd) | None => None end)
        | ArgLocal path ip =>
            l <- store_local_new E path ip cp ;;
            ret (match l with Some ls => Some (SLocal ls, b_target bd) | None => None end)
        end)).
  { destruct (classify_arg tp arg) as [|url|path ip] eqn:Ec.
    - exists 0. intros cp n bd. eapply cost_free; [apply cost_target_as|]. intros [ok t] _. destruct ok; done.
    - destruct (cost_http_new E Z kc url) as (B & HB). exists B. intros cp n bd. eapply (cost_seq _ _ _ _ B 0); [exact HB| |lia]. intros [hs|] _; done.
    - exists (new_local_cost E Z path ip). intros cp n bd. eapply (cost_seq _ _ _ _ _ 0); [apply (cost_local_new E Z kc)| |lia].
      intros [ls|] Hl; [|done]. apply cost_ret. intros b. cbn. specialize (Hs arg path ip (or_introl eq_refl) Ec). unfold small. cbn. lia. }
  destruct H as (B & HB). exists B. intros cp n k bd (K1 & K2). unfold append_store_from_arg. eapply (cost_seq _ _ _ _ B 0); [apply HB| |lia].
  intros [[s t]|] Hss; [|done]. unfold store_chain_append. cbv zeta. eapply cost_free.
  - eapply (cost_free _ _ _ _ _ any (fun r => Forall (small Z Smax) (snd r) /\ length (snd r) <= S k)); [destruct (_ <=? _)%N; [apply cost_alloc|now apply cost_ret]|].
    intros a _. destruct (negb a); [apply cost_ret; cbn; auto|]. destruct (_ <=? _)%N at 1; [apply cost_ub|]. apply cost_ret. cbn [snd]. split; [apply Forall_app; auto|]. rewrite app_length. cbn. lia.
  - intros [[ok sp] ch] (A & B0). apply cost_ret. destruct ok; [split; [exact A|exact B0]|exact Logic.I].
Qed.
Lemma sized_cons tp a args : sized tp (a :: args) -> sized tp [a] /\ sized tp args.
Proof. intros H. split; intros arg path ip Hin; apply H; [destruct Hin as [->|[]]; now left|now right]. Qed.
Lemma cost_append_stores tp : forall args, sized tp args -> exists B, forall cp n k bd, build_ok k bd ->
  cost B (fun r => match r with Some bd' => build_ok (k + length args) bd' | None => True end) (append_stores E tp cp n bd args).
Proof.
  induction args as [|a args IH]; intros Hs; cbn [append_stores].
  - exists 0. intros cp n k bd H. apply cost_ret. cbn. now rewrite Nat.add_0_r.
  - apply sized_cons in Hs as (S1 & S2). destruct (cost_append tp a S1) as (B1 & H1). destruct (IH S2) as (B2 & H2). exists (B1 + B2). intros cp n k bd H.
    eapply cost_bind; [apply (H1 cp n k bd H)|]. intros [bd'|] Hb; [|done]. cbn [length]. rewrite Nat.add_succ_r. apply (H2 cp n (S k) bd' Hb).
Qed.
Lemma cost_opts tp : forall os, sized tp (store_opts os) -> exists B, forall cp n k bd, build_ok k bd ->
  cost B (fun r => match r with OptsDone bd' => build_ok (k + length (store_opts os)) bd' | _ => True end) (casync_opts E tp cp n bd os).
Proof.
  induction os as [|o os IH]; intros Hs; cbn [casync_opts].
  - exists 0. intros cp n k bd H. apply cost_ret. cbn. now rewrite Nat.add_0_r.
  - destruct o as [|a| |]; [exists 0; intros; done| |apply IH, Hs|exists 0; intros; done].
    cbn [store_opts flat_map app] in Hs. apply sized_cons in Hs as (S1 & S2). destruct (cost_append tp a S1) as (B1 & H1). destruct (IH S2) as (B2 & H2). exists (B1 + B2). intros cp n k bd H.
    eapply cost_bind; [apply (H1 cp n k bd H)|]. intros [bd'|] Hb; [|done]. cbn [store_opts flat_map app length]. rewrite Nat.add_succ_r. apply (H2 cp n (S k) bd' Hb).
Qed.
Lemma cost_target_new path : cost 0 any (target_new E path).
Proof. unfold target_new. free. destruct (negb a); [done|]. destruct (e_open_rw E path); done. Qed.
Lemma cost_chain_new h : cost 0 any (store_chain_new h).
Proof. unfold store_chain_new. free. destruct (negb a); [done|]. free. destruct (negb a0); done. Qed.
Lemma cost_kcapi : cost 0 any (match e_getenv E (bs "CSN_KCAPI_DRIVER") with Some _ => sha_kcapi_init E | None => ret true end).
Proof.
  destruct (e_getenv E _) eqn:Eg; [|done]. intros w (H1 & H2). assert (Hc : kc = true) by (apply Bool.not_false_is_true; intros C; pose proof (Hkc C); congruence).
  unfold sha_kcapi_init. destruct (e_kcapi_ok E); (split; [exact Logic.I|]); repeat split; auto; cbn; intros; try lia; congruence.
Qed.

Lemma cost_init_run argv : sized (cmd_target argv) (cmd_stores argv) -> length (cmd_stores argv) <= L ->
  exists B N0, cost B (fun r => match r with InitOk su => N.to_nat (su_n su) <= N0 /\ forall l, su_store su = Some l -> Forall (small Z Smax) l /\ length l <= L | _ => True end) (init E argv).
Proof.
  intros Hs HLen. unfold init, cmd_target, cmd_stores, is_csn in *. destruct (beq _ (bs "csn")).
  - unfold csn. destruct argv as [|a0 [|ip [|tp [|a3 args]]]]; try (exists 0, 0; done). destruct (cost_append_stores tp (skipn 3 (a0 :: ip :: tp :: a3 :: args)) Hs) as (B & HB).
    destruct (e_open E ip) as [ino|]; [|exists 0, 0; eapply cost_free; [apply cost_kcapi|]; intros k _; destruct (negb k); done].
    exists (104 + B), (N.to_nat (Z ino)). eapply cost_free; [apply cost_kcapi|]. intros k _. destruct (negb k); [done|].
    eapply cost_bind; [apply cost_load_header|]. intros [[cp n]|] Hn; [|done]. eapply cost_free; [apply cost_target_new|]. intros [t|] _; [|done].
    eapply cost_free; [apply cost_chain_new|]. intros [sp|] _; [|done]. eapply (cost_seq _ _ _ _ B 0); [apply (HB cp n 0); split; [constructor|apply Nat.le_refl]| |lia].
    intros [bd|] K; [|done]. destruct K as (K1 & K2). apply cost_ret. cbn [su_n su_store]. split; [lia|]. intros l [= <-]. split; [exact K1|]. cbn [Nat.add] in K2. lia.
  - destruct (beq _ (bs "casync")); [|exists 0, 0; done]. unfold casync. cbv zeta. destruct (Nat.ltb _ _); [exists 0, 0; done|].
    destruct (e_open E _) as [ino|]; [|exists 0, 0; done]. destruct (getopt_all (skipn 1 argv)) as [os ns] eqn:Eg. cbn [fst] in Hs, HLen. destruct (cost_opts _ os Hs) as (B & HB).
    exists (104 + B), (N.to_nat (Z ino)). eapply cost_bind; [apply cost_load_header|]. intros [[cp n]|] Hn; [|done]. eapply cost_free; [apply cost_target_new|]. intros [t|] _; [|done].
    eapply cost_free; [apply cost_chain_new|]. intros [sp|] _; [|done]. eapply (cost_seq _ _ _ _ B 0); [apply (HB cp n 0); split; [constructor|apply Nat.le_refl]| |lia].
    intros [bd|bd| |] K; try done; [destruct (_ || _); [done|]|]; apply cost_ret; cbn [su_n su_store]; (split; [lia|]); [|discriminate]. destruct K as (K1 & K2). intros l [= <-]. split; [exact K1|]. cbn [Nat.add] in K2. lia.
Qed.
Lemma cost_main argv : sized (cmd_target argv) (cmd_stores argv) -> length (cmd_stores argv) <= L -> exists B, cost B any (main E argv).
Proof.
  intros Hs HLen. destruct (cost_init_run argv Hs HLen) as (B & N0 & H). exists (B + N0 * (40 + entry_cost)). rewrite main_init. eapply cost_bind; [exact H|].
  intros [su| |c] Hsu; [|done|done]. destruct Hsu as (Hn & Hl). eapply cost_le; [apply cost_run, Hl|apply Nat.mul_le_mono_r, Hn|auto].
Qed.
End Live.

Lemma sized_exists E Z tp args : exists Smax, sized E Z Smax tp args.
Proof.
  induction args as [|a args (m & IH)]; [exists 0; intros ? ? ? []|]. exists (m + match classify_arg tp a with ArgLocal p _ => path_size E Z p | _ => 0 end).
  intros arg path ip [<-|Hin] Hc; [rewrite Hc; lia|]. specialize (IH arg path ip Hin Hc). lia.
Qed.
(** One bound does for all runs that start with the same files. *)
Lemma terminates E argv F kc : env_ok E -> (kc = false -> e_getenv E (bs "CSN_KCAPI_DRIVER") = None) ->
  exists B, forall w, (forall i, w_files w i = F i) -> (kc = false -> w_kcapi w = false) -> fst (main E argv w) = Halt ->
    (w_io (snd (main E argv w)) = [] /\ settled (w_io w) < B) \/ (kc = true /\ w_kev (snd (main E argv w)) = [] /\ ksettled (w_kev w) < B).
Proof.
  intros HE Hk. set (Z := fun i => N.max (blen (F i)) (OFF_LIMIT + BUF_SIZE)). destruct (sized_exists E Z (cmd_target argv) (cmd_stores argv)) as (Smax & HS).
  destruct (cost_main E Z kc HE ltac:(intros; unfold Z; lia) Hk Smax (length (cmd_stores argv)) argv HS (Nat.le_refl _)) as (B & HB).
  exists B. intros w Hw Hwk Hh. assert (I : PfLive.inv Z kc w) by (split; [intros i; rewrite Hw; unfold Z; lia|exact Hwk]). specialize (HB w I).
  destruct (main E argv w) as [[c| | |] w']; try discriminate. exact HB.
Qed.
