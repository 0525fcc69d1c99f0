(** When assertions hold (C55): stores, main program. *)
From Coq Require Import Sorting.Permutation.
From Verif Require Import Base Lib Utils Sha Encrypt Discr Chunker Caibx Index StoreLocal Target StoreHttp Chain Ui MainProg
  SpecBasic SpecEnv SpecChunker SpecStore SpecHttp SpecCaibx SpecMain SpecRun SpecAbort
  PfUtils PfBasic PfIO PfIndex PfFrame PfLocal PfCaibx PfSetup PfReadonly PfMemory PfAbort.
Local Open Scope N_scope.

(** ** HTTP stores: the assertion in handle_data always holds *)
Ltac noab_step :=
  match goal with
  | |- noab (bind _ _) => apply noab_bind; [|intros]
  | |- noab (ret _) => apply noab_ret
  | |- noab ub => apply noab_ub
  | |- noab halt => apply noab_halt
  | |- noab alloc => apply noab_alloc
  | |- noab (trace _) => apply noab_trace
  | |- noab (fd_size _ _) => apply noab_fd_size
  | |- noab (preadall _ _ _) => apply noab_pread
  | |- noab (readall _ _ _) => apply noab_pread
  | |- noab (chunk_calculate_id _ _) => apply noab_sha
  | |- noab (match ?x with _ => _ end) => destruct x
  | |- noab (let _ := _ in _) => cbv zeta
  end.
Ltac noaber := repeat noab_step.
Section Http.
Variable E : env.
Lemma noab_absorb r d : noab (decode_buffer_absorb r d). Proof. unfold decode_buffer_absorb. noaber. Qed.
Lemma absorb_state r d : gives (fun x => rq_state (snd x) = rq_state r) (decode_buffer_absorb r d).
Proof. unfold decode_buffer_absorb. cbv zeta. destruct (_ && _); [now apply gives_ret|]. skip_bind. destruct (negb a); [now apply gives_ret|]. destruct (_ <? _); [apply gives_ub|]. destruct (rq_cipher r); [destruct (encrypt_do _ _)|]; now apply gives_ret. Qed.
Lemma noab_handle r d : rq_state r <> FAILED -> noab (handle_data E r d).
Proof. intros H. unfold handle_data. destruct (rq_state r); [noaber..|congruence]. Qed.
Lemma noab_then A B (K : A -> Prop) (m : M A) (k : A -> M B) : noab m -> gives K m -> (forall a, K a -> noab (k a)) -> noab (bind m k).
Proof. intros Hm Hg Hk w. unfold bind. specialize (Hm w). specialize (Hg w). destruct (m w) as [[a| | |] w']; cbn in *; [now apply Hk|congruence..]. Qed.
Lemma noab_data_cb c p r : noab (store_http_data_cb E c p r).
Proof.
  unfold store_http_data_cb. cbv zeta. destruct (match rq_state r with STARTED => _ | _ => false end); [apply noab_ret|].
  destruct (rq_state r) eqn:Es; [| |apply noab_ret].
  - destruct (_ || _).
    + eapply noab_then; [apply noab_absorb|apply absorb_state|]. intros [ok r'] Hr. cbn [snd] in Hr. destruct (negb ok); [apply noab_ret|].
      apply noab_bind; [apply noab_handle; congruence|]. intros [n r'']. destruct n; apply noab_ret.
    + apply noab_bind; [apply noab_handle; congruence|]. intros [n r']. destruct n; [|apply noab_ret]. destruct (Nat.ltb _ _); [|apply noab_ret].
      apply noab_bind; [apply noab_absorb|]. intros [ok r'']. destruct (negb ok); apply noab_ret.
  - destruct (_ || _).
    + eapply noab_then; [apply noab_absorb|apply absorb_state|]. intros [ok r'] Hr. cbn [snd] in Hr. destruct (negb ok); [apply noab_ret|].
      apply noab_bind; [apply noab_handle; congruence|]. intros [n r'']. destruct n; apply noab_ret.
    + apply noab_bind; [apply noab_handle; congruence|]. intros [n r']. destruct n; [|apply noab_ret]. destruct (Nat.ltb _ _); [|apply noab_ret].
      apply noab_bind; [apply noab_absorb|]. intros [ok r'']. destruct (negb ok); apply noab_ret.
Qed.
Lemma noab_deliver c segs fin : forall r, noab (curl_deliver E c segs fin r).
Proof. induction segs as [|s segs IH]; intros r; cbn [curl_deliver]; [apply noab_ret|]. apply noab_bind; [apply noab_data_cb|]. intros [n r']. destruct (_ =? _); [apply IH|apply noab_ret]. Qed.
Lemma noab_perform u r : noab (curl_easy_perform E u r).
Proof.
  intros w. unfold curl_easy_perform. cbv zeta. match goal with |- fst (bind ?m ?k ?w1) <> _ => assert (G : noab (bind m k)) end.
  { apply noab_bind; [apply noab_deliver|]. intros [c r']. apply noab_ret. }
  apply G.
Qed.
Lemma noab_retried u : forall n wt r, noab (retried_curl_easy_perform E u n wt r).
Proof.
  induction n as [|n IH]; intros wt r; cbn [retried_curl_easy_perform]; [apply noab_halt|]. apply noab_bind; [apply noab_perform|]. intros [[c code] r'].
  destruct (negb _); [apply noab_ret|]. apply noab_bind; [apply noab_trace|]. intros _. destruct n; [apply noab_ret|]. apply IH.
Qed.
Lemma noab_http_get hs id out : noab (store_http_get_chunk E hs id out).
Proof.
  unfold store_http_get_chunk, set_url. apply noab_bind; [noaber|]. intros [url|]; [|apply noab_ret]. apply noab_bind; [noaber|]. intros a. destruct (negb a); [apply noab_ret|].
  cbv zeta. apply noab_bind; [apply noab_retried|]. intros [[c code] r]. destruct (curl_is_transient_error c); [destruct (increase_error_counter _); apply noab_ret|].
  assert (G : noab (match code with
            | None => ret (None, rq_out r, hs_after hs r (hs_err hs))
            | Some code =>
                if (code =? 404) || (code =? 410) then ret (Some 0, rq_out r, hs_after hs r (hs_err hs))
                else if 400 <=? code then
                  let '(err, rv) := increase_error_counter (hs_err hs) in
                  ret (rv, rq_out r, hs_after hs r err)
                else
                  match rq_state r with
                  | STARTED | FAILED => ret (Some 0, rq_out r, hs_after hs r (hs_err hs))
                  | STREAMING =>
                      actual <- chunk_calculate_id E (firstn (rq_written r) (rq_out r)) ;;
                      if negb (beq actual id) then ret (Some 0, rq_out r, hs_after hs r 0)
                      else ret (Some (N.of_nat (rq_written r)), rq_out r, hs_after hs r 0)
                  end
            end)) by noaber.
  destruct c; try apply noab_ret; exact G.
Qed.
Lemma noab_keyspec s : noab (encrypt_parse_keyspec E s).
Proof.
  unfold encrypt_parse_keyspec, encrypt_parse_keyspec_buf. apply noab_bind; [|intros; apply noab_ret]. unfold slurp_file. noaber.
Qed.
Lemma noab_handle_params : forall fuel a k, noab (store_handle_params E fuel a k).
Proof.
  induction fuel as [|fuel IH]; intros a k; cbn [store_handle_params]; [apply noab_halt|]. destruct a; [apply noab_ret|]. cbv zeta. destruct (startswith _ _); [|apply noab_ret].
  apply noab_bind; [apply noab_keyspec|]. intros [k'|]; [|apply noab_ret]. apply noab_bind; [apply noab_alloc|]. intros al. destruct (negb al); [apply noab_ret|].
  destruct (strchr _ _); [apply IH|apply noab_ret].
Qed.
Lemma noab_http_new u : noab (store_http_new E u).
Proof.
  unfold store_http_new. destruct (negb _); [apply noab_ret|]. apply noab_bind; [apply noab_alloc|]. intros a. destruct (negb a); [apply noab_ret|].
  apply noab_bind; [apply noab_alloc|]. intros a'. destruct (negb a'); [apply noab_ret|]. cbv zeta. apply noab_bind; [destruct (strrchr _ _); [apply noab_handle_params|apply noab_ret]|].
  intros [k|]; [|apply noab_ret]. apply noab_bind; [apply noab_alloc|]. intros a''. destruct (negb a''); apply noab_ret.
Qed.
End Http.

Section Run.
Variables (E : env) (F : nat -> bytes) (X : nat -> Prop) (cp : params) (D : N).
Notation safe := (safe F X).

(** ** The target; [ne]: the target is a store *)
Definition tgood (ne : bool) (t : target) : Prop := X (t_ino t) /\ (t_queryable t = true -> ne = true /\ live (t_idx t)).
Lemma safe_add ne t l o i : tgood ne t -> (ne = true -> l <> 0) -> safe (tgood ne) (target_add_chunk E t l o i).
Proof.
  intros (Ht & Hl) Hne. unfold target_add_chunk. destruct (t_queryable t) eqn:Eq; cbn [negb]; [|apply safe_ret; split; [exact Ht|congruence]].
  destruct (Hl eq_refl) as (Hn & Hlv). eapply safe_bind; [apply safe_query|]. intros [r x] Hx. cbn [snd] in Hx.
  assert (Hx' : live x) by (unfold live in *; congruence). destruct r.
  - apply safe_ret. split; [exact Ht|]. cbn. auto.
  - eapply safe_bind; [apply safe_insert; auto|]. intros [r' x'] Hx''. cbn [snd] in Hx''. apply safe_ret. split; [exact Ht|]. cbn. auto.
Qed.
Lemma safe_check ne t tmp l o i : tgood ne t -> (ne = true -> l <> 0) -> safe (fun r => tgood ne (snd r)) (target_check_chunk E t tmp l o i).
Proof.
  intros Ht Hl. unfold target_check_chunk. eapply safe_bind; [apply safe_pread|]. intros [ok d] _. destruct (negb ok); [now apply safe_ret|].
  eapply safe_bind; [apply safe_sha|]. intros c _. destruct (negb _); [now apply safe_ret|]. eapply safe_bind; [now apply (safe_add ne)|]. intros t' Ht'. now apply safe_ret.
Qed.
Lemma safe_target_get ne t id out : tgood ne t -> safe (fun r => tgood ne (snd r)) (target_get_chunk E t id out).
Proof.
  intros (Ht & Hl). unfold target_get_chunk. destruct (t_queryable t) eqn:Eq; cbn [negb]; [|apply safe_ret; split; [exact Ht|cbn [snd]; congruence]].
  destruct (Hl eq_refl) as (Hn & Hlv). eapply safe_bind; [apply safe_query|]. intros [r x] Hx. cbn [snd] in Hx.
  assert (Ht' : tgood ne (t_set_idx t x)) by (split; [exact Ht|]; unfold live in *; cbn; intros _; split; congruence).
  destruct r as [pos|]; [|now apply safe_ret]. eapply safe_bind; [apply safe_get|]. intros e _. destruct (_ <? _); [now apply safe_ret|].
  eapply safe_bind; [apply safe_pread|]. intros [ok d] _. destruct (negb ok); now apply safe_ret.
Qed.
Lemma safe_write ne t d l o i : tgood ne t -> (ne = true -> l <> 0) -> safe (fun r => tgood ne (snd r)) (target_write E t d l o i).
Proof.
  intros Ht Hl. unfold target_write. destruct (_ <? _); [apply safe_ub|]. eapply safe_bind; [apply safe_trace|]. intros _ _.
  eapply safe_bind; [apply safe_pwrite, Ht|]. intros ok _. destruct (negb ok); [now apply safe_ret|]. eapply safe_bind; [now apply (safe_add ne)|]. intros t' Ht'. now apply safe_ret.
Qed.

(** ** The chain *)
Definition stgood (s : store) : Prop := match s with SLocal ls => lgood F X cp ls /\ disc_of cp D /\ p_max cp <= UINT32_MAX | _ => True end.
Lemma safe_store_get ne s t id out : stgood s -> tgood ne t -> safe (fun r => stgood (snd (fst r)) /\ tgood ne (snd r)) (store_get_chunk E s t id out).
Proof.
  intros Hs Ht. destruct s as [ls|hs|]; cbn [store_get_chunk].
  - destruct Hs as (Hs & Hd & Hm). eapply safe_bind; [apply (safe_local_get E F X cp D Hd Hm), Hs|].
    intros [[r o] ls'] (A & _). apply safe_ret. split; [now split|exact Ht].
  - eapply safe_bind; [apply (safe_frame _ _ tt_ev); [now apply frame_http_get|apply noab_http_get]|]. intros [[r o] hs'] _. now apply safe_ret.
  - eapply safe_bind; [now apply (safe_target_get ne)|]. intros [[r o] t'] H. apply safe_ret. split; [exact Logic.I|exact H].
Qed.
Definition sgood (l : list substore) : Prop := Forall (fun ss => stgood (ss_store ss)) l.
Lemma safe_chain ne id : forall l i t out, sgood l -> tgood ne t -> safe (fun r => sgood (snd (fst r)) /\ tgood ne (snd r)) (chain_loop E i l t id out).
Proof.
  induction l as [|ss l IH]; intros i t out H Ht; cbn [chain_loop]; [now apply safe_ret|]. inversion H as [|? ? H1 H2]; subst. destruct (negb _).
  - eapply safe_bind; [now apply IH|]. intros [[[r o] l'] t'] (Hl & Ht'). cbn [fst snd] in *. apply safe_ret. split; [now constructor|exact Ht'].
  - eapply safe_bind; [apply safe_trace|]. intros _ _. eapply safe_bind; [now apply (safe_store_get ne)|]. intros [[[r o] s] t'] (Hs & Ht'). cbn [fst snd] in Hs, Ht'.
    eapply safe_bind; [apply safe_trace|]. intros _ _.
    assert (K : forall x, safe (fun r => sgood (snd (fst r)) /\ tgood ne (snd r)) ('(r, out, l', t) <- chain_loop E (S i) l t' id o;; ret (r, out, mkSub s x :: l', t))).
    { intros x. eapply safe_bind; [now apply IH|]. intros [[[r2 o2] l2] t2] (Hl & Ht2). cbn [fst snd] in *. apply safe_ret. split; [now constructor|exact Ht2]. }
    destruct r as [n|]; [destruct (0 <? n)|]; auto. apply safe_ret. cbn. split; [now constructor|exact Ht'].
Qed.

(** ** The entries *)
Definition stategood (ne : bool) (st : mstate) : Prop := tgood ne (m_target st) /\ forall l, m_store st = Some l -> sgood l.
Lemma safe_progress ne n st : stategood ne st -> safe (fun r => stategood ne (snd r)) (entry_progress E n st).
Proof. intros H. unfold entry_progress. destruct (e_interactive E); [|now apply safe_ret]. cbv zeta. eapply safe_bind; [apply safe_trace|]. intros _ _. now apply safe_ret. Qed.
Lemma safe_fetch ne n o l i st : stategood ne st -> (ne = true -> l <> 0) -> safe (fun r => stategood ne (snd r)) (entry_fetch_write E n o l i st).
Proof.
  intros (Ht & Hc) Hl. unfold entry_fetch_write. cbv zeta. eapply (safe_bind _ _ _ _ (fun r => stategood ne (snd r))).
  - destruct (match m_last_id st with Some l0 => beq l0 i | None => false end); [apply safe_ret; now split|]. destruct (m_store st) as [chain|]; [|apply safe_ub].
    eapply safe_bind; [apply (safe_chain ne); [now apply Hc|exact Ht]|]. intros [[[r b] ch] t] (Hch & Ht'). cbn [fst snd] in Hch, Ht'.
    destruct (match r with Some n0 => n0 =? l | None => false end); apply safe_ret; (split; [exact Ht'|]); cbn; intros l0 [= <-]; exact Hch.
  - intros [ok st'] (Ht' & Hc'). cbn [snd] in Ht', Hc'. destruct (negb ok); [apply safe_ret; now split|]. eapply safe_bind; [now apply (safe_write ne)|]. intros [ok' t] Ht''. cbn [snd] in Ht''.
    assert (G : stategood ne (m_set st' (m_store st') t (m_last_id st') (m_resuming st') (m_buf st'))) by (split; [exact Ht''|exact Hc']).
    destruct (negb ok'); [now apply safe_ret|]. now apply safe_progress.
Qed.
Lemma safe_entry ne n o l i st : stategood ne st -> (ne = true -> l <> 0) -> safe (fun r => stategood ne (snd r)) (entry_cb E n o l i st).
Proof.
  intros (Ht & Hc) Hl. unfold entry_cb. destruct (m_resuming st); [|apply safe_fetch; [now split|exact Hl]]. destruct (_ <? _); [apply safe_ret; now split|].
  eapply safe_bind; [now apply (safe_check ne)|]. intros [[[[]|] b] t] Ht'; cbn [snd] in Ht'; [apply safe_progress|apply safe_fetch..]; auto; now split.
Qed.
Lemma safe_free : forall l, safe any (store_chain_free l).
Proof.
  induction l as [|ss l IH]; cbn [store_chain_free]; [now apply safe_ret|]. destruct (ss_store ss); try exact IH.
  eapply safe_bind; [|intros; exact IH]. unfold store_local_free. eapply safe_bind; [apply safe_cleanup|]. intros x _. now apply (safe_ret _ _ _ any).
Qed.
Lemma safe_sync ne su : ~ X (su_index su) -> bytes_ok (F (su_index su)) -> blen (F (su_index su)) < OFF_LIMIT -> valid_index (F (su_index su)) (su_params su) (su_n su) ->
  (ne = true -> filled (F (su_index su)) (N.to_nat (su_n su))) -> tgood ne (su_target su) -> (forall l, su_store su = Some l -> sgood l) -> safe any (run_sync E su).
Proof.
  intros Hx Hok Hlim Hv Hne Ht Hc. unfold run_sync. replace (su_n su) with (N.of_nat (N.to_nat (su_n su))) by lia. eapply safe_bind.
  - apply (safe_iterate F X (entry_cb E _) (su_index su) (su_params su) (N.to_nat (su_n su)) ne (stategood ne)); auto.
    + destruct Hv as (Hv & _). unfold blen in Hv. lia.
    + intros H. now apply Hne.
    + intros o l i a Ha Hl. now apply safe_entry.
    + split; [exact Ht|exact Hc].
  - intros [ok st] _. destruct (negb ok); [now apply safe_ret|]. destruct (m_store st); [|apply safe_ub]. eapply safe_bind; [apply safe_free|]. intros _ _. now apply safe_ret.
Qed.
End Run.

(** ** Setting up: no file changes *)
Section Init.
Variables (E : env) (F : nat -> bytes) (cp : params) (D : N) (n : N) (tp : bytes).
Notation X := (fun _ : nat => False).
Notation safe := (safe F X).
Definition argok (arg : bytes) : Prop := match classify_arg tp arg with
  | ArgTarget => n <> 0
  | ArgHttp _ => True
  | ArgLocal path ip => disc_of cp D /\ p_max cp <= UINT32_MAX /\ side_ok E F X ip /\ forall s, e_open E path = Some s -> sized F X cp s end.
Definition from_args (args : list bytes) (s : store) : Prop := match s with
  | SLocal ls => ls_params ls = cp /\ exists arg path, In arg args /\ local_path tp arg path /\ e_open E path = Some (ls_ino ls)
  | _ => True end.
(** What the stores made so far are. *)
Definition bgood (args : list bytes) (b : building) : Prop :=
  Forall (fun ss => from_args args (ss_store ss)) (b_chain b) /\ (t_queryable (b_target b) = true -> live (t_idx (b_target b)) /\ In tp args).
Lemma safe_append args b arg : In arg args -> argok arg -> bgood args b ->
  safe (fun r => match r with Some b' => bgood args b' | None => True end) (append_store_from_arg E tp cp n b arg).
Proof.
  intros Hin Ha (Hb & Hq). unfold append_store_from_arg.
  eapply (safe_bind _ _ _ _ (fun r => match r with Some (s, t) => from_args args s /\ (t_queryable t = true -> live (t_idx t) /\ In tp args) | None => True end)).
  - unfold argok in Ha. destruct (classify_arg tp arg) as [|url|path ip] eqn:Ec.
    + unfold target_as_store. destruct (t_queryable (b_target b)) eqn:Eq.
      * eapply (safe_bind _ _ _ _ (fun r => r = (true, b_target b))); [now apply safe_ret|]. intros r ->. apply safe_ret. split; [exact Logic.I|intros _; now apply Hq].
      * assert (Etp : arg = tp). { unfold classify_arg in Ec. destruct (beq arg tp) eqn:Eb; [now apply beq_eq|]. destruct (startswith _ _); [discriminate|]. destruct (strchr _ _); discriminate. }
        eapply (safe_bind _ _ _ _ (fun r => fst r = true -> live (t_idx (snd r)))).
        -- eapply safe_bind; [apply safe_init, Ha|]. intros [ok x] Hx. cbn [fst snd] in Hx. destruct ok; cbn [negb]; apply safe_ret; cbn; auto.
        -- intros [ok t] Ht. cbn [fst snd] in Ht. apply safe_ret. destruct ok; [|exact Logic.I]. split; [exact Logic.I|]. intros _. split; [now apply Ht|congruence].
    + eapply safe_bind; [apply (safe_frame _ _ tt_ev); [now apply frame_http_new|apply noab_http_new]|]. intros [hs|] _; apply safe_ret; [|exact Logic.I]. split; [exact Logic.I|exact Hq].
    + destruct Ha as (Hd & Hm & Hs & Hz). eapply safe_bind; [apply (safe_local_new E F X cp D Hd Hm path ip Hs Hz)|]. intros [ls|] Hl; apply safe_ret; [|exact Logic.I].
      destruct Hl as ((G1 & G2) & G3). split; [|exact Hq]. split; [exact G1|]. exists arg, path. split; [exact Hin|]. split; [now exists ip|exact G3].
  - intros [[s t]|] Hs; [|now apply safe_ret]. destruct Hs as (Hs & Ht).
    assert (G : safe (fun r => Forall (fun ss => from_args args (ss_store ss)) (snd r)) (store_chain_append (b_space b) (b_chain b) s)).
    { unfold store_chain_append. cbv zeta. eapply (safe_bind _ _ _ _ any); [destruct (_ <=? _); [apply safe_alloc|now apply safe_ret]|]. intros a _.
      destruct (negb a); [now apply safe_ret|]. destruct (_ <=? _); [apply safe_ub|]. apply safe_ret. cbn. apply Forall_app. split; [exact Hb|]. constructor; [exact Hs|constructor]. }
    eapply safe_bind; [exact G|]. intros [[ok sp] ch] Hch. apply safe_ret. destruct ok; [|exact Logic.I]. split; [exact Hch|exact Ht].
Qed.
Lemma safe_append_stores all : forall args b, incl args all -> (forall a, In a args -> argok a) -> bgood all b ->
  safe (fun r => match r with Some b' => bgood all b' | None => True end) (append_stores E tp cp n b args).
Proof.
  induction args as [|a args IH]; intros b Hi Ha Hb; cbn [append_stores]; [now apply safe_ret|].
  eapply safe_bind; [apply (safe_append all); auto; [apply Hi; now left|apply Ha; now left]|]. intros [b'|] Hb'; [|now apply safe_ret].
  apply IH; auto; [intros x Hx; apply Hi; now right|intros x Hx; apply Ha; now right].
Qed.
Lemma safe_opts all : forall os b, incl (store_opts os) all -> (forall a, In a (store_opts os) -> argok a) -> bgood all b ->
  safe (fun r => match r with OptsDone b' | OptsHelp b' => bgood all b' | _ => True end) (casync_opts E tp cp n b os).
Proof.
  induction os as [|o os IH]; intros b Hi Ha Hb; cbn [casync_opts]; [now apply safe_ret|]. destruct o as [|a| |]; try (now apply safe_ret); cbn [store_opts flat_map app] in *.
  - eapply safe_bind; [apply (safe_append all); auto; [apply Hi; now left|apply Ha; now left]|]. intros [b'|] Hb'; [|now apply safe_ret].
    apply IH; auto; [intros x Hx; apply Hi; now right|intros x Hx; apply Ha; now right].
  - now apply IH.
Qed.
End Init.

(** ** A whole run *)
Section Whole.
Variables (E : env) (argv : list bytes) (w : world).
Hypothesis (HS : sane E argv w) (HU : unproblematic E argv w).
Notation F := (w_files w).
Notation none := (fun _ : nat => False).
Notation tp := (cmd_target argv).
Notation args := (cmd_stores argv).
Definition is_local (arg : bytes) : bool := match classify_arg tp arg with ArgLocal _ _ => true | _ => false end.

(** What is known once the index has been opened. *)
Section Opened.
Variables (ino : nat) (cp : params) (n : N).
Hypothesis (Hi : e_open E (cmd_index argv) = Some ino) (Hv : valid_index (F ino) cp n).
Lemma one_disc : exists D, forall arg path, In arg args -> local_path tp arg path -> disc_of cp D.
Proof.
  destruct (existsb is_local args) eqn:Ex.
  - apply existsb_exists in Ex as (arg & Hin & Hl). unfold is_local in Hl. destruct (classify_arg tp arg) as [| |path ip] eqn:Ec; try discriminate.
    destruct (sa_disc _ _ _ HS ino cp n arg path Hi Hv Hin ltac:(now exists ip)) as (D & HD). exists D. auto.
  - exists 0. intros arg path Hin (ip & Hl). assert (existsb is_local args = true); [|congruence]. apply existsb_exists. exists arg. split; [exact Hin|]. unfold is_local. now rewrite Hl.
Qed.
Lemma params_fine : p_max cp <= UINT32_MAX /\ 0 < p_avg cp.
Proof. destruct Hv as (_ & _ & _ & _ & _ & _ & _ & (A & _) & B & _). change (2 ^ 32) with 4294967296 in B. unfold UINT32_MAX. split; lia. Qed.
Lemma store_sized X arg path s : In arg args -> local_path tp arg path -> e_open E path = Some s -> ~ X s -> sized F X cp s.
Proof.
  intros Hin Hl Ho Hx. destruct (up_store _ _ _ HU ino cp n arg path s Hi Hv Hin Hl Ho) as (A & B). split; [exact Hx|]. split; [apply (sa_files _ _ _ HS)|]. split; [exact A|]. split; [exact B|apply params_fine].
Qed.
Lemma args_fine D : (forall arg path, In arg args -> local_path tp arg path -> disc_of cp D) -> forall arg, In arg args -> argok E F cp D n tp arg.
Proof.
  intros HD arg Hin. unfold argok. destruct (classify_arg tp arg) as [|url|path ip] eqn:Ec; [|exact Logic.I|].
  - assert (Etp : arg = tp). { unfold classify_arg in Ec. destruct (beq arg tp) eqn:Eb; [now apply beq_eq|]. destruct (startswith _ _); [discriminate|]. destruct (strchr _ _); discriminate. }
    subst arg. destruct (up_target _ _ _ HU ino cp n Hin Hi Hv) as (A & _). lia.
  - assert (Hl : local_path tp arg path) by now exists ip. split; [eapply HD; eauto|]. split; [apply params_fine|]. split.
    + destruct ip as [q|]; [|exact Logic.I]. intros s Hs. split; [auto|]. destruct (sa_files _ _ _ HS s) as (B1 & B2). split; [exact B1|]. split; [exact B2|].
      intros p m Hm. eapply (up_side _ _ _ HU); eauto.
    + intros s Hs. eapply store_sized; eauto.
Qed.
End Opened.

Definition init_good (r : init_res) : Prop := match r with
  | InitOk su => (forall l, su_store su = Some l -> Forall (fun ss => from_args E (su_params su) tp args (ss_store ss)) l) /\
      (t_queryable (su_target su) = true -> live (t_idx (su_target su)) /\ In tp args)
  | _ => True end.
(** Opening index and target, common to csn and casync. *)
Lemma safe_open ino hint (m : params -> N -> target -> N -> M init_res) : e_open E (cmd_index argv) = Some ino ->
  (forall cp n t sp D, valid_index (F ino) cp n -> t_queryable t = false -> (forall arg, In arg args -> argok E F cp D n tp arg) -> safe F none init_good (m cp n t sp)) ->
  safe F none init_good (h <- caibx_load_header E ino ;;
         match h with
         | None => ret InitFail
         | Some (cp, n) =>
             t <- target_new E tp ;;
             match t with
             | None => ret InitFail
             | Some t => s <- store_chain_new hint ;; match s with None => ret InitFail | Some sp => m cp n t sp end
             end
         end).
Proof.
  intros Hi Hm. destruct (sa_files _ _ _ HS ino) as (B1 & B2). eapply safe_bind; [apply safe_load_header; auto|]. intros [[cp n]|] Hv; [|now apply safe_ret].
  eapply (safe_bind _ _ _ _ (fun r => match r with Some t => t_queryable t = false | None => True end)).
  { unfold target_new. eapply safe_bind; [apply safe_alloc|]. intros a _. destruct (negb a); [now apply safe_ret|]. destruct (e_open_rw E tp); now apply safe_ret. }
  intros [t|] Ht; [|now apply safe_ret]. eapply (safe_bind _ _ _ _ any).
  { unfold store_chain_new. eapply safe_bind; [apply safe_alloc|]. intros a _. destruct (negb a); [now apply safe_ret|]. eapply safe_bind; [apply safe_alloc|]. intros a' _. destruct (negb a'); now apply safe_ret. }
  intros [sp|] _; [|now apply safe_ret]. destruct (one_disc ino cp n Hi Hv) as (D & HD). apply (Hm cp n t sp D); auto. eapply args_fine; eauto.
Qed.
Lemma safe_whole_init : safe F none init_good (init E argv).
Proof.
  unfold init. destruct (beq (basename (nth 0 argv [])) (bs "csn")) eqn:Ea.
  - assert (Ec : is_csn argv = true) by exact Ea. assert (Ei : cmd_index argv = nth 1 argv []) by (unfold cmd_index; now rewrite Ec).
    assert (Et : tp = nth 2 argv []) by (unfold cmd_target; now rewrite Ec). assert (Es : args = skipn 3 argv) by (unfold cmd_stores; now rewrite Ec).
    unfold csn. destruct argv as [|a0 [|ip [|tp' [|a3 rest]]]] eqn:Eargv; try (now apply safe_ret). rewrite <- Eargv in *. 
    replace ip with (cmd_index argv) by (rewrite Ei, Eargv; reflexivity). replace tp' with tp by (rewrite Et, Eargv; reflexivity).
    replace (skipn 3 argv) with args by exact Es.
    eapply (safe_bind _ _ _ _ any).
    { destruct (e_getenv E (bs "CSN_KCAPI_DRIVER")); [|now apply safe_ret]. intros w1 (I1 & I2). unfold wp, sha_kcapi_init. destruct (e_kcapi_ok E); (split; [exact Logic.I|]); now split. }
    intros k _. destruct (negb k); [now apply safe_ret|]. destruct (e_open E (cmd_index argv)) as [ino|] eqn:Eo; [|now apply safe_ret].
    apply (safe_open ino _ (fun cp n t sp => b <- append_stores E tp cp n (mkB sp [] t) args ;; match b with None => ret InitFail | Some b => ret (InitOk (mkSetup ino cp n (b_target b) (Some (b_chain b)))) end) Eo).
    intros cp n t sp D Hv Hq Ha. eapply safe_bind; [apply (safe_append_stores E F cp D n tp args); auto; [apply incl_refl|]|].
    { split; [constructor|]. cbn. congruence. }
    intros [b|] Hb; apply safe_ret; [|exact Logic.I]. destruct Hb as (Hb1 & Hb2). split; [intros l [= <-]; exact Hb1|exact Hb2].
  - assert (Ec : is_csn argv = false) by exact Ea. assert (Ei : cmd_index argv = nth (length argv - 2) argv []) by (unfold cmd_index; now rewrite Ec).
    assert (Et : tp = nth (length argv - 1) argv []) by (unfold cmd_target; now rewrite Ec). assert (Es : args = store_opts (fst (getopt_all (skipn 1 argv)))) by (unfold cmd_stores; now rewrite Ec).
    destruct (beq _ (bs "casync")); [|now apply safe_ret]. unfold casync. cbv zeta. destruct (Nat.ltb _ _); [now apply safe_ret|]. rewrite <- Ei, <- Et.
    destruct (e_open E (cmd_index argv)) as [ino|] eqn:Eo; [|now apply safe_ret]. destruct (getopt_all (skipn 1 argv)) as [os ns]. cbn [fst] in Es.
    apply (safe_open ino _ (fun cp n t sp => r <- casync_opts E tp cp n (mkB sp [] t) os ;;
       match r with
       | OptsDone b => if Nat.ltb (length ns) 3 || negb (beq (nth 0 ns []) (bs "extract")) then ret (InitExit 1) else ret (InitOk (mkSetup ino cp n (b_target b) (Some (b_chain b))))
       | OptsHelp b => ret (InitOk (mkSetup ino cp n (b_target b) None))
       | OptsFail => ret InitFail
       | OptsExit => ret (InitExit 1)
       end) Eo).
    intros cp n t sp D Hv Hq Ha. rewrite Es in Ha. eapply safe_bind; [apply (safe_opts E F cp D n tp (store_opts os)); auto; [apply incl_refl|]|].
    { split; [constructor|]. cbn. congruence. }
    intros [b|b| |] Hb; try (now apply safe_ret); destruct Hb as (Hb1 & Hb2).
    + destruct (_ || _); [now apply safe_ret|]. apply safe_ret. unfold init_good. rewrite Es. split; [intros l [= <-]; exact Hb1|exact Hb2].
    + apply safe_ret. unfold init_good. rewrite Es. split; [discriminate|exact Hb2].
Qed.
Theorem no_abort : fst (main E argv w) <> Abort.
Proof.
  assert (G : wp (main E argv) (fun _ _ => True) (fun bd _ => bd <> BAbort) w).
  { rewrite main_init. apply wp_bind. assert (I0 : inv F none w) by (split; [auto|apply (up_io _ _ _ HU)]).
    pose proof (wp_conj _ _ _ _ _ _ _ (safe_whole_init w I0) (wp_init E false argv w HS ltac:(discriminate))) as W.
    eapply wp_mono; [exact W| |intros bd w1 (A & _); exact A].
    intros [su| |c] w1 ((Hg & Hw1) & wk & Hk & _ & H); [|now apply wp_ret..]. destruct Hg as (Hg1 & Hg2). destruct H as [R1 R2 R3 R4 R5 R6 R7 R8].
    destruct (one_disc _ _ _ R2 R4) as (D & HD). set (X := eq (t_ino (su_target su))).
    assert (S : safe F X any (run_sync E su)).
    { apply (safe_sync E F X (su_params su) D (t_queryable (su_target su))); auto.
      - intros C. apply (sa_index _ _ _ HS _ R3). now rewrite R2, C.
      - apply (sa_files _ _ _ HS).
      - apply (sa_files _ _ _ HS).
      - intros Hq. eapply (up_target _ _ _ HU); eauto. now apply Hg2.
      - split; [reflexivity|]. intros Hq. split; [exact Hq|now apply Hg2].
      - intros l Hl. specialize (Hg1 l Hl). eapply Forall_impl; [|exact Hg1]. intros ss Hss. unfold stgood, from_args in *. destruct (ss_store ss) as [ls| |]; auto.
        destruct Hss as (P1 & arg & path & P2 & P3 & P4). split; [split; [exact P1|]|split; [eapply HD; eauto|eapply params_fine; eauto]].
        eapply store_sized; eauto. intros C. apply (sa_alias _ _ _ HS _ _ _ R3 P2 P3). now rewrite P4, C. }
    eapply wp_mono; [apply S; split; [intros i _; now apply Hw1|apply Hw1]| |auto]. auto. }
  unfold wp in G. destruct (main E argv w) as [[c| | |] w']; cbn; congruence.
Qed.
End Whole.
