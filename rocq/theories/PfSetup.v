(** Setting up a run: the store chain built from the command line. *)
From Coq Require Import Sorting.Permutation.
From Verif Require Import Base Lib Utils Sha Chunker Caibx Index StoreLocal Target StoreHttp Chain Ui MainProg
  SpecBasic SpecEnv SpecChunker SpecStore SpecHttp SpecCaibx SpecMain SpecRun
  PfUtils PfBasic PfIO PfRead PfKeyspec PfIndex PfFrame PfLocal PfHttp PfHttp2 PfCaibx PfTarget PfChain PfMain PfMain2.
Local Open Scope N_scope.

(** What a store argument becomes; a local store is made in a world that is left by what precedes it. *)
Definition made (E : env) (w0 : world) (tp : bytes) (cp : params) (arg : bytes) (ss : substore) : Prop :=
  ss_active ss = true /\
  match classify_arg tp arg, ss_store ss with
  | ArgTarget, STarget => True
  | ArgHttp u, SHttp hs => exists w1, (forall i, w_files w1 i = w_files w0 i) /\ new_store_spec E w1 u hs
  | ArgLocal path ip, SLocal ls => e_open E path = Some (ls_ino ls) /\ ls_params ls = cp /\ (ip = None -> all_validated ls) /\
      exists w1 w2, (forall i, w_files w1 i = w_files w0 i) /\ suffix (w_io w1) (w_io w0) /\ incl (w_alloc w1) (w_alloc w0) /\
        store_local_new E path ip cp w1 = (Ok (Some ls), w2)
  | _, _ => False
  end.

Lemma Forall2_weaken A B (P Q : A -> B -> Prop) l l' : (forall a b, P a b -> Q a b) -> Forall2 P l l' -> Forall2 Q l l'.
Proof. intros H. induction 1; constructor; auto. Qed.

Lemma wp_self A (m : M A) w : wp m (fun r w' => m w = (Ok r, w')) (fun _ _ => True) w.
Proof. unfold wp. destruct (m w) as [[?| | |] ?]; auto. Qed.

Section Setup.
Variables (E : env) (b : bool) (cp : params) (tp : bytes) (tino : nat) (n : N).
Hypothesis (Hes : env_strings E) (Hmax : p_max cp <= UINT32_MAX).

Record BInv (w0 : world) (done : list bytes) (bd : building) (w : world) : Prop := mkBInv {
  bi_quiet : quiet0 w0 w;
  bi_space : 1 <= b_space bd;
  bi_len : N.of_nat (length (b_chain bd)) <= b_space bd;
  bi_ino : t_ino (b_target bd) = tino;
  bi_tgt : t_queryable (b_target bd) = true -> idx_ok (t_idx (b_target bd)) /\ ix_entries (t_idx (b_target bd)) = [] /\ 0 < n /\ ix_space (t_idx (b_target bd)) = n;
  bi_q : In ArgTarget (map (classify_arg tp) done) -> t_queryable (b_target bd) = true;
  bi_ok : Forall (sub_ok E b w (b_target bd)) (b_chain bd);
  bi_made : Forall2 (made E w0 tp cp) done (b_chain bd) }.

Definition arg_ok (arg : bytes) : Prop :=
  no_nul arg /\ forall path, local_path tp arg path -> (exists D, disc_of cp D) /\ e_open E path <> Some tino.

Lemma wp_chain_append space l s (Q : bool * N * list substore -> world -> Prop) (R : bad -> world -> Prop) w :
  1 <= space -> N.of_nat (length l) <= space ->
  (forall w', quiet0 w w' -> In false (w_alloc w) -> Q (false, space, l) w') ->
  (forall sp w', quiet0 w w' -> 1 <= sp -> N.of_nat (length (l ++ [mkSub s true])) <= sp -> Q (true, sp, l ++ [mkSub s true]) w') ->
  wp (store_chain_append space l s) Q R w.
Proof.
  intros H1 H2 H3 H4. unfold store_chain_append. destruct (space <=? N.of_nat (length l)) eqn:Ef.
  - apply wp_bind, wp_alloc_why; intros al Ha; cbn [negb].
    + destruct (space * 2 <=? N.of_nat (length l)) eqn:E2; [exfalso; lia|]. apply wp_ret, H4; [now apply quiet0_alloc|lia|]. rewrite app_length. cbn. lia.
    + intros Hf. apply wp_ret, H3; [now apply quiet0_alloc|exact Hf].
  - apply wp_bind, wp_ret. cbn [negb]. rewrite Ef. apply wp_ret, H4; [apply quiet0_refl|lia|]. rewrite app_length. cbn. lia.
Qed.

Lemma wp_append_store w0 done bd arg w : files_ok w0 -> BInv w0 done bd w -> arg_ok arg ->
  wp (append_store_from_arg E tp cp n bd arg)
     (fun r w' => match r with Some bd' => BInv w0 (done ++ [arg]) bd' w' | None => quiet0 w0 w' end)
     (fun bd w' => bd <> BUB /\ quiet0 w0 w') w.
Proof.
  intros Hf0 HB (Hn & Hloc). destruct HB as [B1 B2 B3 B4 B5 B6 B7 B8]. unfold append_store_from_arg.
  assert (Hf : files_ok w) by (eapply quiet0_files_ok; eauto).
  (* the common end *)
  assert (Fin : forall s t w1, quiet0 w w1 -> t_ino t = tino ->
     (t_queryable t = true -> idx_ok (t_idx t) /\ ix_entries (t_idx t) = [] /\ 0 < n /\ ix_space (t_idx t) = n) ->
     (t_queryable (b_target bd) = true -> t_queryable t = true) ->
     (classify_arg tp arg = ArgTarget -> t_queryable t = true) ->
     store_ok E b w1 t s -> made E w0 tp cp arg (mkSub s true) ->
     wp ('(ok, space, chain) <- store_chain_append (b_space bd) (b_chain bd) s ;; ret (if (ok : bool) then Some (mkB space chain t) else None))
       (fun r w' => match r with Some bd' => BInv w0 (done ++ [arg]) bd' w' | None => quiet0 w0 w' end)
       (fun bd w' => bd <> BUB /\ quiet0 w0 w') w1).
  { intros s t w1 Q1 F1 F2 F3 F4 F5 F6. apply wp_bind, wp_chain_append; [exact B2|exact B3| |].
    - intros w' Q' _. apply wp_ret. eapply quiet0_trans; [exact B1|]. eapply quiet0_trans; eauto.
    - intros sp w' Q' L1 L2. apply wp_ret. 
      assert (Qf : forall i, w_files w' i = w_files w i) by (intros i; rewrite (quiet0_files _ _ Q'); apply (quiet0_files _ _ Q1)).
      constructor; cbn [b_space b_chain b_target]; auto.
      + eapply quiet0_trans; [exact B1|]. eapply quiet0_trans; eauto.
      + rewrite map_app, in_app_iff. intros [H|[H|[]]]; auto.
      + apply Forall_app. split.
        * eapply subs_ok_stable; [| |exact B7]; [intros i _; apply Qf|congruence].
        * constructor; [|constructor]. intros _. cbn [ss_store]. eapply store_ok_stable; [| |exact F5]; [intros i _; apply (quiet0_files _ _ Q')|reflexivity].
      + apply Forall2_app; [exact B8|]. constructor; [exact F6|constructor]. }
  assert (Ftr : forall w1, quiet0 w w1 -> quiet0 w0 w1) by (intros; eapply quiet0_trans; eauto).
  apply wp_bind. destruct (classify_arg tp arg) as [|url|path ip] eqn:Ec.
  - apply wp_bind. unfold target_as_store. destruct (t_queryable (b_target bd)) eqn:Eq.
    + apply wp_ret, wp_ret. apply Fin; auto using quiet0_refl; [exact I|]. split; [reflexivity|]. rewrite Ec. exact I.
    + apply wp_bind, wp_index_init.
      * intros _. split; [discriminate|exact B1].
      * intros al Ha Hpos Hx. cbn [negb]. apply wp_ret, wp_ret. apply Fin; auto using quiet0_alloc; cbn; auto. split; [reflexivity|]. cbn. now rewrite Ec.
      * intros al Ha _ _. cbn [negb]. apply wp_ret, wp_ret, wp_ret. apply Ftr. now apply quiet0_alloc.
  - apply wp_bind. apply (wp_frame none store_ev); [apply frame_http_new; intros; exact I|]. 
    assert (Hu : url = arg). { unfold classify_arg in Ec. destruct (beq arg tp); [discriminate|]. destruct (startswith arg _); [congruence|]. destruct (strchr arg 58); discriminate. }
    subst url. eapply wp_mono; [apply (wp_http_new E arg w Hes Hn)| |].
    + intros [hs|] w1 Hs Q1; apply wp_ret; [|apply wp_ret, Ftr, Q1]. 
      apply Fin; auto; [discriminate| |].
      * cbn. destruct Hs as (u & ps & _ & _ & _ & _ & _ & H & _). exact H.
      * split; [reflexivity|]. cbn [ss_store]. rewrite Ec. exists w. split; [apply (quiet0_files _ _ B1)|exact Hs].
    + intros x w1 -> Q1. split; [discriminate|]. apply Ftr, Q1.
  - destruct (Hloc path ltac:(exists ip; exact Ec)) as ((D & HD) & Hal).
    apply wp_bind. eapply wp_mono; [apply wp_conj; [apply wp_self|apply (wp_local_new E b D cp HD Hmax path ip w) with
        (Q := fun r w1 => quiet0 w w1 /\ forall ls, r = Some ls -> e_open E path = Some (ls_ino ls) /\ ls_params ls = cp /\ ls_ok E b (w_files w (ls_ino ls)) ls /\ (ip = None -> all_validated ls))
        (R := fun x w1 => quiet0 w w1 /\ x <> BUB); [exact Hf|..]]|..].
    + intros w1 Q1 _. split; [exact Q1|]. discriminate.
    + intros ls w1 Q1 Ho Hp Hls Hsc. split; [exact Q1|]. intros ls' X. injection X as <-. split; [exact Ho|]. split; [exact Hp|]. split; [exact Hls|]. intros ->.
      destruct Hsc as [(_ & x & Hx)|(_ & Hsc)]; [discriminate|]. intros e. eapply scanned_flags; eauto.
    + intros x w1 Q1 _ Hx. auto.
    + intros [ls|] w1 (Self & Q1 & H1); [|apply wp_ret, wp_ret, Ftr, Q1]. destruct (H1 ls eq_refl) as (Ho & Hp & Hls & Hv). apply wp_ret. apply Fin; auto; [discriminate| |].
      * cbn. rewrite Hp, (quiet0_files _ _ Q1). split; [congruence|]. split; [eauto|]. split; [exact Hmax|]. split; [apply Hf|exact Hls].
      * split; [reflexivity|]. cbn [ss_store]. rewrite Ec. split; [exact Ho|]. split; [exact Hp|]. split; [exact Hv|]. exists w, w1.
        split; [apply (quiet0_files _ _ B1)|]. destruct B1 as (_ & X & Y & _). auto.
    + intros x w1 (_ & Q1 & Hx). split; [exact Hx|]. apply Ftr, Q1.
Qed.

Lemma wp_append_stores w0 : files_ok w0 -> forall args done bd w, BInv w0 done bd w -> Forall arg_ok args ->
  wp (append_stores E tp cp n bd args)
     (fun r w' => match r with Some bd' => BInv w0 (done ++ args) bd' w' | None => quiet0 w0 w' end)
     (fun bd w' => bd <> BUB /\ quiet0 w0 w') w.
Proof.
  intros Hf. induction args as [|a args IH]; intros done bd w HB HA; cbn [append_stores].
  - apply wp_ret. now rewrite app_nil_r.
  - inversion HA; subst. apply wp_bind. eapply wp_mono; [apply (wp_append_store w0 done); auto| |auto].
    intros [bd'|] w' H; [|apply wp_ret; exact H]. replace (done ++ a :: args) with ((done ++ [a]) ++ args) by (rewrite <- app_assoc; reflexivity). apply IH; auto.
Qed.
Lemma wp_casync_opts w0 : files_ok w0 -> forall os done bd w, BInv w0 done bd w -> Forall arg_ok (store_opts os) ->
  wp (casync_opts E tp cp n bd os)
     (fun r w' => match r with OptsDone bd' => BInv w0 (done ++ store_opts os) bd' w' | OptsHelp _ => In OptHelp os /\ quiet0 w0 w' | _ => quiet0 w0 w' end)
     (fun bd w' => bd <> BUB /\ quiet0 w0 w') w.
Proof.
  intros Hf. induction os as [|o os IH]; intros done bd w HB HA; cbn [casync_opts].
  - apply wp_ret. cbn. now rewrite app_nil_r.
  - assert (Hmono : forall (m : M opts_res) w1 dn, wp m
        (fun r w' => match r with OptsDone bd' => BInv w0 dn bd' w' | OptsHelp _ => In OptHelp os /\ quiet0 w0 w' | _ => quiet0 w0 w' end)
        (fun bd w' => bd <> BUB /\ quiet0 w0 w') w1 ->
      wp m (fun r w' => match r with OptsDone bd' => BInv w0 dn bd' w' | OptsHelp _ => In OptHelp (o :: os) /\ quiet0 w0 w' | _ => quiet0 w0 w' end)
        (fun bd w' => bd <> BUB /\ quiet0 w0 w') w1).
    { intros m w1 dn H. eapply wp_mono; [exact H| |auto]. intros [] w' H'; auto. destruct H'. split; [now right|assumption]. }
    destruct o as [|a| |]; cbn [store_opts flat_map app] in *.
    + apply wp_ret. split; [now left|]. apply HB.
    + inversion HA; subst. apply wp_bind. eapply wp_mono; [apply (wp_append_store w0 done); auto| |auto].
      intros [bd'|] w' H; [|apply wp_ret; exact H]. replace (done ++ a :: flat_map _ os) with ((done ++ [a]) ++ store_opts os) by (rewrite <- app_assoc; reflexivity). apply Hmono, IH; auto.
    + apply Hmono, IH; auto.
    + apply wp_ret. apply HB.
Qed.
End Setup.

(** The state in which the entries are processed. *)
Record ready (E : env) (b : bool) (argv : list bytes) (w wk : world) (su : setup) (w1 : world) : Prop := mkReady {
  rd_quiet : quiet0 wk w1;
  rd_index : e_open E (cmd_index argv) = Some (su_index su);
  rd_target : e_open_rw E (cmd_target argv) = Some (t_ino (su_target su));
  rd_valid : valid_index (w_files w (su_index su)) (su_params su) (su_n su);
  rd_mode : hash_mode b w1;
  rd_tgt : t_queryable (su_target su) = true -> idx_ok (t_idx (su_target su)) /\ ix_entries (t_idx (su_target su)) = [] /\ 0 < su_n su /\ ix_space (t_idx (su_target su)) = su_n su;
  rd_q : In ArgTarget (map (classify_arg (cmd_target argv)) (cmd_stores argv)) -> t_queryable (su_target su) = true;
  rd_store : exists l, su_store su = Some l /\ Forall (sub_ok E b w1 (su_target su)) l /\
     Forall2 (made E w (cmd_target argv) (su_params su)) (cmd_stores argv) l }.

(** The world after the kernel interface was opened, or not. *)
Definition started (w wk : world) : Prop := exists k, wk = set_kcapi k (w_kev w) w.

Lemma main_init E argv : main E argv = (r <- init E argv ;; match r with InitFail => ret 1 | InitExit c => ret c | InitOk su => run_sync E su end).
Proof. reflexivity. Qed.

Lemma set_kcapi_id w : set_kcapi (w_kcapi w) (w_kev w) w = w. Proof. now destruct w. Qed.

Lemma wp_init E b argv w : sane E argv w -> (b = true -> hash_reliable E w) ->
  wp (init E argv) (fun r w1 => exists wk, started w wk /\ quiet0 wk w1 /\
        match r with InitOk su => ready E b argv w wk su w1 | InitFail => True | InitExit c => c = 1 end)
    (fun bd w1 => bd <> BUB /\ exists wk, started w wk /\ quiet0 wk w1) w.
Proof.
  intros [HE Hsv Hes Hf Hargs Hhelp Hix Hal Hd] Hb. unfold init.
  assert (S0 : started w w) by (exists (w_kcapi w); now rewrite set_kcapi_id).
  (* opening the index and the target *)
  assert (Open : forall wk ino hint (m : params -> N -> target -> N -> M init_res) (Q : init_res -> world -> Prop) (R : bad -> world -> Prop),
     (forall i, w_files wk i = w_files w i) -> e_open E (cmd_index argv) = Some ino ->
     (forall r w1, quiet0 wk w1 -> r = InitFail -> Q r w1) -> (forall bd w1, quiet0 wk w1 -> bd <> BUB -> R bd w1) ->
     (forall cp n t sp w1, quiet0 wk w1 -> valid_index (w_files w ino) cp n -> p_max cp <= UINT32_MAX ->
        e_open_rw E (cmd_target argv) = Some (t_ino t) -> t_queryable t = false -> 1 <= sp -> wp (m cp n t sp) Q R w1) ->
     wp (h <- caibx_load_header E ino ;;
         match h with
         | None => ret InitFail
         | Some (cp, n) =>
             t <- target_new E (cmd_target argv) ;;
             match t with
             | None => ret InitFail
             | Some t => s <- store_chain_new hint ;; match s with None => ret InitFail | Some space => m cp n t space end
             end
         end) Q R wk).
  { intros wk ino hint m Q R Hfk Ho Q0 R0 Hm. apply wp_bind.
    assert (Hl : wp (caibx_load_header E ino) (fun r w1 => quiet0 wk w1 /\ match r with Some (cp, n) => valid_index (w_files w ino) cp n | None => True end)
              (fun bd w1 => quiet0 wk w1 /\ bd <> BUB) wk).
    { assert (L := load_header_spec E ino (w_files w ino) ltac:(apply Hf) wk (Hfk ino) ltac:(apply Hf)). unfold wp.
      destruct (caibx_load_header E ino wk) as [[[[cp n]|]| | |] w1]; try contradiction.
      - destruct L as ((ev & -> & Hs & _) & V & _). split; [now apply quiet0_io|exact V].
      - destruct L as ((ev & -> & Hs) & _). split; [now apply quiet0_io|exact I].
      - destruct L as (-> & _). split; [|discriminate]. apply quiet0_io. exists (w_io wk). now rewrite app_nil_r. }
    eapply wp_mono; [exact Hl| |].
    2:{ intros bd w1 (A & B). auto. }
    intros [[cp n]|] w1 (Q1 & V); [|apply wp_ret; auto].
    apply wp_bind. unfold target_new. apply wp_bind, wp_alloc_why; intros al1 Ha1; cbn [negb].
    2:{ intros _. apply wp_ret, wp_ret, Q0; auto. eapply quiet0_trans; [exact Q1|now apply quiet0_alloc]. }
    destruct (e_open_rw E (cmd_target argv)) as [tino|] eqn:Et.
    2:{ apply wp_ret, wp_ret, Q0; auto. eapply quiet0_trans; [exact Q1|now apply quiet0_alloc]. }
    apply wp_ret. apply wp_bind. unfold store_chain_new. set (w2 := set_alloc al1 w1).
    assert (Q2 : quiet0 wk w2) by (eapply quiet0_trans; [exact Q1|now apply quiet0_alloc]). clearbody w2.
    apply wp_bind, wp_alloc_why; intros al2 Ha2; cbn [negb].
    2:{ intros _. apply wp_ret, wp_ret, Q0; auto. eapply quiet0_trans; [exact Q2|now apply quiet0_alloc]. }
    set (w3 := set_alloc al2 w2). assert (Q3 : quiet0 wk w3) by (eapply quiet0_trans; [exact Q2|now apply quiet0_alloc]). clearbody w3.
    apply wp_bind, wp_alloc_why; intros al3 Ha3; cbn [negb].
    2:{ intros _. apply wp_ret, wp_ret, Q0; auto. eapply quiet0_trans; [exact Q3|now apply quiet0_alloc]. }
    apply wp_ret. apply Hm; [|exact V| |exact eq_refl|reflexivity|].
    - eapply quiet0_trans; [exact Q3|now apply quiet0_alloc].
    - destruct V as (_ & _ & _ & _ & _ & _ & _ & _ & V & _). unfold UINT32_MAX. change (2 ^ 32) with 4294967296 in V. lia.
    - lia. }
  (* the invariant before the first store *)
  assert (B0 : forall cp tino n sp t wk w1, quiet0 wk w1 -> 1 <= sp -> t_ino t = tino -> t_queryable t = false ->
     BInv E b cp (cmd_target argv) tino n w1 [] (mkB sp [] t) w1).
  { intros. constructor; cbn [b_space b_chain b_target length map]; auto using quiet0_refl; try lia; try congruence; try (intros []). }
  assert (Hargs_ok : forall ino cp n tino, e_open E (cmd_index argv) = Some ino -> valid_index (w_files w ino) cp n ->
     e_open_rw E (cmd_target argv) = Some tino -> Forall (arg_ok E cp (cmd_target argv) tino) (cmd_stores argv)).
  { intros ino cp n tino Ho V Ht. rewrite Forall_forall in *. intros a Ha. split; [auto|]. intros path Hp. split; [eapply Hd; eauto|eapply Hal; eauto]. }
  (* the end *)
  assert (Fin : forall wk ino cp n tino sp t w1 w2 bd, started w wk -> hash_mode b wk -> quiet0 wk w1 -> e_open E (cmd_index argv) = Some ino ->
     valid_index (w_files w ino) cp n -> e_open_rw E (cmd_target argv) = Some tino ->
     BInv E b cp (cmd_target argv) tino n w1 (cmd_stores argv) bd w2 -> 1 <= sp -> t_ino t = tino ->
     ready E b argv w wk (mkSetup ino cp n (b_target bd) (Some (b_chain bd))) w2).
  { intros wk ino cp n tino sp t w1 w2 bd (k & Hk) Hmo Q1 Ho V Ht [B1 B2 B3 B4 B5 B6 B7 B8] _ _.
    assert (Q2 : quiet0 wk w2) by (eapply quiet0_trans; eauto).
    constructor; cbn [su_index su_params su_n su_target su_store]; auto.
    - now rewrite B4.
    - eapply quiet0_mode; eauto.
    - exists (b_chain bd). split; [reflexivity|]. split; [exact B7|]. eapply Forall2_weaken; [|exact B8].
      intros a ss (M1 & M2). split; [exact M1|]. destruct (classify_arg _ a), (ss_store ss); auto.
      + destruct M2 as (w3 & M2 & M3). exists w3. split; [|exact M3]. intros i. rewrite M2, (quiet0_files _ _ Q1), Hk. reflexivity.
      + destruct M2 as (M2 & M3 & M4 & w3 & w4 & M5 & M6 & M7 & M8). split; [exact M2|]. split; [exact M3|]. split; [exact M4|]. exists w3, w4.
        pose proof Q1 as (_ & X & Y & _). rewrite Hk in X, Y. cbn in X, Y.
        split; [intros i; rewrite M5, (quiet0_files _ _ Q1), Hk; reflexivity|]. split; [eapply suffix_trans; eauto|]. split; [eapply incl_tran; eauto|exact M8]. }
  destruct (beq (basename (nth 0 argv [])) (bs "csn")) eqn:Ec; [|destruct (beq (basename (nth 0 argv [])) (bs "casync"))].
  - assert (Eis : is_csn argv = true) by exact Ec. unfold csn.
    destruct argv as [|a0 [|a1 [|a2 [|a3 args]]]]; try (apply wp_ret; exists w; auto using quiet0_refl).
    set (argv := a0 :: a1 :: a2 :: a3 :: args) in *. change a1 with (nth 1 argv []). change a2 with (nth 2 argv []).
    assert (Ei : nth 1 argv [] = cmd_index argv) by (unfold cmd_index; now rewrite Eis).
    assert (Et : nth 2 argv [] = cmd_target argv) by (unfold cmd_target; now rewrite Eis).
    assert (Es : skipn 3 argv = cmd_stores argv) by (unfold cmd_stores; now rewrite Eis).
    rewrite Ei, Et, Es. 
    assert (Main : forall wk, started w wk -> hash_mode b wk ->
      wp (match e_open E (cmd_index argv) with
      | None => ret InitFail
      | Some ino =>
          h <- caibx_load_header E ino ;;
          match h with
          | None => ret InitFail
          | Some (cp, n) =>
              t <- target_new E (cmd_target argv) ;;
              match t with
              | None => ret InitFail
              | Some t =>
                  s <- store_chain_new (N.of_nat (length argv) - 3 + 1) ;;
                  match s with
                  | None => ret InitFail
                  | Some space =>
                      b <- append_stores E (cmd_target argv) cp n (mkB space [] t) (cmd_stores argv) ;;
                      match b with
                      | None => ret InitFail
                      | Some b => ret (InitOk (mkSetup ino cp n (b_target b) (Some (b_chain b))))
                      end
                  end
              end
          end
      end) (fun r w1 => exists wk, started w wk /\ quiet0 wk w1 /\
        match r with InitOk su => ready E b argv w wk su w1 | InitFail => True | InitExit c => c = 1 end)
       (fun bd w1 => bd <> BUB /\ exists wk, started w wk /\ quiet0 wk w1) wk).
    { intros wk Sk Hm. destruct (e_open E (cmd_index argv)) as [ino|] eqn:Eo; [|apply wp_ret; exists wk; auto using quiet0_refl].
      apply (Open wk ino (N.of_nat (length argv) - 3 + 1) (fun cp n t space => 
                      b <- append_stores E (cmd_target argv) cp n (mkB space [] t) (cmd_stores argv) ;;
                      match b with
                      | None => ret InitFail
                      | Some b => ret (InitOk (mkSetup ino cp n (b_target b) (Some (b_chain b))))
                      end)).
      - destruct Sk as (k & ->). reflexivity.
      - reflexivity.
      - intros r w1 Q1 ->. exists wk. auto.
      - intros bd w1 Q1 Hbd. split; [exact Hbd|]. exists wk. auto.
      - intros cp n t sp w1 Q1 V Hmax Ht Hq Hsp. apply wp_bind. eapply wp_mono.
        + apply (wp_append_stores E b cp (cmd_target argv) (t_ino t) n Hes Hmax w1 (quiet0_files_ok _ _ Q1 ltac:(destruct Sk as (k & ->); exact Hf)) (cmd_stores argv) []).
          * apply (B0 _ _ _ _ _ wk); auto.
          * eapply Hargs_ok; eauto.
        + intros [bd|] w2 H; apply wp_ret; exists wk; split; auto.
          * cbn [app] in H. split; [eapply quiet0_trans; [exact Q1|apply H]|]. eapply Fin with (sp := sp) (t := t); eauto.
          * split; [eapply quiet0_trans; eauto|exact I].
        + intros x w2 (Hx & Q2). split; [exact Hx|]. exists wk. split; [exact Sk|]. eapply quiet0_trans; eauto. }
    apply wp_bind. destruct (e_getenv E (bs "CSN_KCAPI_DRIVER")) as [drv|] eqn:Ek.
    + unfold sha_kcapi_init, wp at 1. destruct (e_kcapi_ok E); cbn [negb].
      * apply Main; [exists true; reflexivity|]. intros Hbt. destruct (Hb Hbt) as [(H & _)|H]; [congruence|]. right. exact H.
      * apply wp_ret. exists w. auto using quiet0_refl.
    + apply wp_ret. cbn [negb]. apply Main; [exact S0|]. intros Hbt. destruct (Hb Hbt) as [(_ & H)|H]; [now left|now right].
  - assert (Eis : is_csn argv = false) by exact Ec. unfold casync.
    assert (Ei : nth (length argv - 2) argv [] = cmd_index argv) by (unfold cmd_index; now rewrite Eis).
    assert (Et : nth (length argv - 1) argv [] = cmd_target argv) by (unfold cmd_target; now rewrite Eis).
    assert (Es : store_opts (fst (getopt_all (skipn 1 argv))) = cmd_stores argv) by (unfold cmd_stores; now rewrite Eis).
    cbv zeta. rewrite Ei, Et. destruct (Nat.ltb (length argv) 3); [apply wp_ret; exists w; auto using quiet0_refl|].
    destruct (e_open E (cmd_index argv)) as [ino|] eqn:Eo; [|apply wp_ret; exists w; auto using quiet0_refl].
    assert (Hm : hash_mode b w). { intros Hbt. destruct (Hb Hbt) as [(_ & H)|H]; [now left|now right]. }
    destruct (getopt_all (skipn 1 argv)) as [os ns] eqn:Eg. cbn [fst] in *.
    apply (Open w ino (N.of_nat ((length argv - 4) / 2 + 1)) (fun cp n t space => 
                  r <- casync_opts E (cmd_target argv) cp n (mkB space [] t) os ;;
                  match r with
                  | OptsFail => ret InitFail
                  | OptsExit => ret (InitExit 1)
                  | OptsHelp b => ret (InitOk (mkSetup ino cp n (b_target b) None))      (* main.c:238-240 *)
                  | OptsDone b =>
                      if Nat.ltb (length ns) 3 || negb (beq (nth 0 ns []) (bs "extract"))
                      then ret (InitExit 1)
                      else ret (InitOk (mkSetup ino cp n (b_target b) (Some (b_chain b))))
                  end)).
    + reflexivity.
    + reflexivity.
    + intros r w1 Q1 ->. exists w. auto.
    + intros bd w1 Q1 Hbd. split; [exact Hbd|]. exists w. auto.
    + intros cp n t sp w1 Q1 V Hmax Ht Hq Hsp. apply wp_bind. eapply wp_mono.
      * apply (wp_casync_opts E b cp (cmd_target argv) (t_ino t) n Hes Hmax w1 (quiet0_files_ok _ _ Q1 Hf) os []).
        -- apply (B0 _ _ _ _ _ w); auto.
        -- rewrite Es. eapply Hargs_ok; eauto.
      * intros [bd|bd| |] w2 H.
        -- rewrite Es in H. cbn [app] in H. assert (Q2 : quiet0 w w2) by (eapply quiet0_trans; [exact Q1|apply H]).
           destruct (Nat.ltb (length ns) 3 || negb (beq (nth 0 ns []) (bs "extract"))); apply wp_ret; exists w; (split; [exact S0|]); (split; [exact Q2|]); [reflexivity|]. eapply Fin with (sp := sp) (t := t) (w1 := w1); eauto.
        -- exfalso. apply (Hhelp Eis). apply H.
        -- apply wp_ret. exists w. split; [exact S0|]. split; [eapply quiet0_trans; eauto|exact I].
        -- apply wp_ret. exists w. split; [exact S0|]. split; [eapply quiet0_trans; eauto|reflexivity].
      * intros x w2 (Hx & Q2). split; [exact Hx|]. exists w. split; [exact S0|]. eapply quiet0_trans; eauto.
  - apply wp_ret. exists w. auto using quiet0_refl.
Qed.
