(** What the functions of the program can change at all (used in C08-C12 and everywhere else). *)
From Verif Require Import Base Lib Utils Sha Encrypt Discr Chunker Caibx Index StoreLocal Target StoreHttp Chain Ui MainProg
  SpecBasic PfUtils PfBasic PfIO.

(** [quiet S P w w']: from [w] to [w'] only files in [S] changed, events were only consumed, and
    everything added to the trace satisfies [P]. *)
Definition tr_ext (P : tev -> Prop) (w w' : world) : Prop := exists tr, w_trace w' = tr ++ w_trace w /\ Forall P tr.
Definition quiet (S : nat -> Prop) (P : tev -> Prop) (w w' : world) : Prop :=
  (forall i, ~ S i -> w_files w' i = w_files w i) /\ suffix (w_io w') (w_io w) /\ incl (w_alloc w') (w_alloc w) /\
  (kc_clean w -> kc_clean w') /\ tr_ext P w w'.

Section Frame.
Variables (S : nat -> Prop) (P : tev -> Prop).
Notation q := (quiet S P).

Lemma quiet_refl w : q w w.
Proof. split; [auto|]. split; [apply suffix_refl|]. split; [apply incl_refl|]. split; [auto|]. exists []. auto. Qed.
Lemma quiet_trans a b c : q a b -> q b c -> q a c.
Proof.
  intros (A1 & A2 & A3 & A4 & (t1 & A5 & A6)) (B1 & B2 & B3 & B4 & (t2 & B5 & B6)).
  split; [intros i Hi; now rewrite B1, A1|]. split; [eapply suffix_trans; eauto|].
  split; [eapply incl_tran; eauto|]. split; [auto|]. exists (t2 ++ t1).
  split; [now rewrite B5, A5, app_assoc|]. apply Forall_app. auto.
Qed.

Definition frame {A} (m : M A) : Prop := forall w, q w (snd (m w)).

Lemma frame_bind A B (m : M A) (k : A -> M B) : frame m -> (forall a, frame (k a)) -> frame (bind m k).
Proof.
  intros Hm Hk w. unfold bind. specialize (Hm w). destruct (m w) as [[a| | |] w1]; cbn [snd] in *; auto.
  eapply quiet_trans; [exact Hm|apply Hk].
Qed.
Lemma frame_ret A (a : A) : frame (ret a). Proof. intros w. apply quiet_refl. Qed.
Lemma frame_abort A : frame (@abort A). Proof. intros w. apply quiet_refl. Qed.
Lemma frame_ub A : frame (@ub A). Proof. intros w. apply quiet_refl. Qed.
Lemma frame_halt A : frame (@halt A). Proof. intros w. apply quiet_refl. Qed.
Lemma frame_lift A (o : outcome A) : frame (lift o). Proof. intros w. apply quiet_refl. Qed.
Lemma frame_assert b : frame (u_assert b). Proof. intros w. destruct b; apply quiet_refl. Qed.
Lemma frame_fun A (m : world -> M A) : (forall w0, frame (m w0)) -> frame (fun w => m w w).
Proof. intros H w. apply H. Qed.
Lemma frame_trace t : P t -> frame (trace t).
Proof.
  intros Ht w. cbn. split; [auto|]. split; [apply suffix_refl|]. split; [apply incl_refl|]. split; [auto|].
  exists [t]. auto.
Qed.
Lemma quiet_io w ev : suffix ev (w_io w) -> q w (set_io ev w).
Proof. intros H. split; [auto|]. split; [exact H|]. split; [apply incl_refl|]. split; [auto|]. exists []. auto. Qed.
Lemma quiet_alloc w al : incl al (w_alloc w) -> q w (set_alloc al w).
Proof. intros H. split; [auto|]. split; [apply suffix_refl|]. split; [exact H|]. split; [auto|]. exists []. auto. Qed.
Lemma quiet_kcapi w k kv : suffix kv (w_kev w) -> (w_kcapi w = false -> k = false) -> q w (set_kcapi k kv w).
Proof.
  intros Hs Hk. split; [auto|]. split; [apply suffix_refl|]. split; [apply incl_refl|]. split; [|exists []; auto].
  intros [C|C]; [left; cbn; auto|right; cbn]. eapply kernel_ok_suffix; eauto.
Qed.
Lemma quiet_nperf w n : q w (set_nperf n w).
Proof. split; [auto|]. split; [apply suffix_refl|]. split; [apply incl_refl|]. split; [auto|]. exists []. auto. Qed.

Lemma frame_alloc : frame alloc.
Proof.
  intros w. unfold alloc. destruct (w_alloc w) as [|b r] eqn:E; [apply quiet_refl|].
  apply quiet_alloc. rewrite E. apply incl_tl, incl_refl.
Qed.
Lemma frame_preadall ino len off : frame (preadall ino len off).
Proof.
  intros w. unfold preadall. destruct (len =? 0)%N; [apply quiet_refl|].
  destruct (OFF_LIMIT <=? off)%N.
  - destruct (w_io w) as [|e ev] eqn:E; [apply quiet_refl|]. apply quiet_io. rewrite E. apply suffix_cons, suffix_refl.
  - destruct (read_loop _ len (w_io w) []) as [[r got] ev'] eqn:ER.
    apply read_loop_suffix in ER. destruct r; apply quiet_io, ER.
Qed.
Lemma frame_readall ino pos len : frame (readall ino pos len). Proof. apply frame_preadall. Qed.
Lemma frame_fd_size E ino : frame (fd_size E ino).
Proof. intros w. unfold fd_size. destruct (e_kind E ino); apply quiet_refl. Qed.
Lemma frame_sha E d : frame (sha_once E d).
Proof.
  intros w. apply (wp_final _ (sha_once E d) (fun w' => q w w')). apply wp_sha_once.
  - intros k kv r Hs H1 _ _ _. apply quiet_kcapi; [exact Hs|]. intros K. apply H1, K.
  - intros kv Hs K. apply quiet_kcapi; [exact Hs|]. congruence.
Qed.
Lemma frame_chunk_id E d : frame (chunk_calculate_id E d). Proof. apply frame_sha. Qed.
Lemma frame_pwriteall E ino data off : S ino -> (forall o d, P (TWrite ino o d)) -> frame (pwriteall E ino data off).
Proof.
  intros Hi Hp w. unfold pwriteall.
  destruct (pwrite_loop (e_kind E ino) (w_files w ino) off data (w_io w) []) as [[[r f'] wr] ev'] eqn:EP.
  apply pwrite_loop_spec in EP as (n & L & -> & Hd & Hs & (new & -> & Hnew) & Hk & Ho).
  match goal with |- q w (snd match r with _ => _ end) => assert (G : q w (mkWorld (upd_file (w_files w) ino (fw (w_files w ino) (N.to_nat off) (firstn n data))) ev'
            (w_alloc w) (w_kcapi w) (w_kev w) (w_nperf w) (trace_writes ino (new ++ []) (w_trace w)))) end.
  { split; [|split; [exact Hs|split; [apply incl_refl|split; [auto|]]]]; cbn.
    - intros i Hni. unfold upd_file. destruct (Nat.eqb_spec i ino); [subst; contradiction|reflexivity].
    - exists (map (fun p => TWrite ino (fst p) (snd p)) (new ++ [])). split; [reflexivity|].
      apply Forall_map, Forall_forall. intros; apply Hp. }
  destruct r; exact G.
Qed.
Lemma frame_read1 ino pos len : frame (read1 ino pos len).
Proof.
  intros w. unfold read1. destruct (w_io w) as [|[k| | |] ev] eqn:E; try apply quiet_refl;
    apply quiet_io; rewrite E; apply suffix_cons, suffix_refl.
Qed.
End Frame.

(** One step of a frame proof. *)
Ltac frame_step :=
  lazymatch goal with
  | |- frame _ _ (bind _ _) => apply frame_bind; [|intros]
  | |- frame _ _ (ret _) => apply frame_ret
  | |- frame _ _ abort => apply frame_abort
  | |- frame _ _ ub => apply frame_ub
  | |- frame _ _ halt => apply frame_halt
  | |- frame _ _ (lift _) => apply frame_lift
  | |- frame _ _ (u_assert _) => apply frame_assert
  | |- frame _ _ alloc => apply frame_alloc
  | |- frame _ _ (preadall _ _ _) => apply frame_preadall
  | |- frame _ _ (readall _ _ _) => apply frame_readall
  | |- frame _ _ (fd_size _ _) => apply frame_fd_size
  | |- frame _ _ (sha_once _ _) => apply frame_sha
  | |- frame _ _ (chunk_calculate_id _ _) => apply frame_chunk_id
  | |- frame _ _ (read1 _ _ _) => apply frame_read1
  | |- frame _ _ (let (_, _) := ?x in _) => destruct x
  | |- frame _ _ (match ?x with _ => _ end) => destruct x
  | |- frame ?S ?P (let x := ?v in @?b x) => let b' := eval cbv beta in (b v) in change (frame S P b')
  end.
Ltac framer := repeat frame_step.

Section Functions.
Variables (S : nat -> Prop) (P : tev -> Prop) (E : env).
Notation fr := (frame S P).

Lemma frame_load_header ino : fr (caibx_load_header E ino).
Proof.
  unfold caibx_load_header, load_index_header, validate_table_header, validate_table_footer, load_section_header.
  framer.
Qed.
Lemma frame_iterate A (cb : N -> N -> bytes -> A -> M (bool * A)) ino p n : (forall o l i a, fr (cb o l i a)) ->
  forall k i last a, fr (iterate_loop cb ino p n k i last a).
Proof. intros H. induction k; intros; cbn [iterate_loop]; framer; auto. Qed.
Lemma frame_scan_buf A (cb : N -> N -> bytes -> A -> M (bool * A)) : (forall o l i a, fr (cb o l i a)) ->
  forall fuel buf st, fr (scan_buf cb E fuel buf st).
Proof. intros H. induction fuel; intros; cbn [scan_buf]; framer; auto. Qed.
Lemma frame_scan_reads A (cb : N -> N -> bytes -> A -> M (bool * A)) ino : (forall o l i a, fr (cb o l i a)) ->
  forall fuel pos st, fr (scan_reads cb E fuel ino pos st).
Proof. intros H. induction fuel; intros; cbn [scan_reads]; framer; auto. apply frame_scan_buf, H. Qed.
Lemma frame_scan_fd A (cb : N -> N -> bytes -> A -> M (bool * A)) ino p a : (forall o l i a, fr (cb o l i a)) ->
  fr (chunker_scan_fd cb E ino p a).
Proof.
  intros H. unfold chunker_scan_fd. apply frame_bind; [apply frame_lift|intros c]. apply frame_bind.
  - apply frame_fun with (m := fun w0 => scan_reads cb E (Datatypes.S (length (w_io w0))) ino 0 (mkScan c 0%N 0%N a)).
    intros. now apply frame_scan_reads.
  - intros. framer. apply H.
Qed.
Lemma frame_index_init x n : fr (index_init x n). Proof. unfold index_init. framer. Qed.
Lemma frame_index_cleanup x : fr (index_cleanup x). Proof. unfold index_cleanup. framer. Qed.
Lemma frame_index_insert x o l i : fr (index_insert x o l i). Proof. unfold index_insert. framer. Qed.
Lemma frame_index_query x i : fr (index_query E x i). Proof. unfold index_query. framer. Qed.
Lemma frame_index_get x i : fr (index_get x i). Proof. unfold index_get. framer. Qed.
Lemma frame_insert_index fl o l i x : fr (store_insert_index fl o l i x).
Proof. unfold store_insert_index. framer. apply frame_index_insert. Qed.
Lemma frame_sideload ls p : fr (store_sideload_index E ls p).
Proof.
  unfold store_sideload_index. framer; try apply frame_load_header; try apply frame_index_init; try apply frame_index_cleanup.
  apply frame_iterate. intros; apply frame_insert_index.
Qed.
Hypothesis HPscan : forall i, P (TScan i).
Lemma frame_store_scan ls : fr (store_scan E ls).
Proof.
  unfold store_scan. apply frame_bind; [apply frame_trace, HPscan|intros _]. framer; try apply frame_index_init.
  apply frame_scan_fd. intros; apply frame_insert_index.
Qed.
Lemma frame_local_get_loop : forall fuel ls id out, fr (local_get_loop E fuel ls id out).
Proof.
  induction fuel; intros; cbn [local_get_loop]; framer; auto; try apply frame_index_query; try apply frame_index_get;
    try apply frame_index_cleanup; try apply frame_store_scan.
Qed.
Lemma frame_local_get ls id out : fr (store_local_get_chunk E ls id out).
Proof. apply frame_fun with (m := fun w0 => local_get_loop E (Datatypes.S (length (w_io w0))) ls id out). intros; apply frame_local_get_loop. Qed.
Lemma frame_local_new path ip cp : fr (store_local_new E path ip cp).
Proof. unfold store_local_new. framer; try apply frame_sideload; try apply frame_store_scan. Qed.
Lemma frame_local_free ls : fr (store_local_free ls).
Proof. unfold store_local_free. framer. apply frame_index_cleanup. Qed.
Lemma frame_add_chunk t l o i : fr (target_add_chunk E t l o i).
Proof. unfold target_add_chunk. framer; try apply frame_index_query; apply frame_index_insert. Qed.
Lemma frame_check_chunk t tmp l o i : fr (target_check_chunk E t tmp l o i).
Proof. unfold target_check_chunk. framer. apply frame_add_chunk. Qed.
Lemma frame_target_get t id out : fr (target_get_chunk E t id out).
Proof. unfold target_get_chunk. framer; try apply frame_index_query; apply frame_index_get. Qed.
Lemma frame_target_write t data l o i : S (t_ino t) -> (forall o d, P (TWrite (t_ino t) o d)) -> (forall o d, P (TPut (t_ino t) o d)) -> fr (target_write E t data l o i).
Proof. intros H1 H2 H3. unfold target_write. framer; [apply frame_trace, H3|now apply frame_pwriteall|apply frame_add_chunk]. Qed.
Lemma frame_target_new p : fr (target_new E p). Proof. unfold target_new. framer. Qed.
Lemma frame_as_store t n : fr (target_as_store t n). Proof. unfold target_as_store. framer; apply frame_index_init. Qed.

Lemma frame_absorb r d : fr (decode_buffer_absorb r d). Proof. unfold decode_buffer_absorb. framer. Qed.
Lemma frame_handle_data r d : fr (handle_data E r d). Proof. unfold handle_data. framer. Qed.
Lemma frame_data_cb c p r : fr (store_http_data_cb E c p r).
Proof. unfold store_http_data_cb. framer; try apply frame_absorb; try apply frame_handle_data. Qed.
Lemma frame_deliver c segs fin : forall r, fr (curl_deliver E c segs fin r).
Proof. induction segs; intros; cbn [curl_deliver]; framer; auto. apply frame_data_cb. Qed.
Hypothesis HPperf : forall u, P (TPerform u).
Hypothesis HPsleep : forall u, P (TSleep u).
Lemma frame_perform u r : fr (curl_easy_perform E u r).
Proof.
  intros w. unfold curl_easy_perform. eapply quiet_trans; [apply quiet_nperf|].
  eapply quiet_trans; [apply (frame_trace S P (TPerform u) (HPperf u))|].
  set (w1 := add_trace _ _).
  assert (G : fr ('(c, r) <- curl_deliver E (p_code (e_server E u (w_nperf w))) (p_segs (e_server E u (w_nperf w))) (p_end (e_server E u (w_nperf w))) r ;; ret (c, p_code (e_server E u (w_nperf w)), r))).
  { framer. apply frame_deliver. }
  apply G.
Qed.
Lemma frame_retried u : forall n wt r, fr (retried_curl_easy_perform E u n wt r).
Proof.
  induction n; intros; cbn [retried_curl_easy_perform]; framer; auto; try apply frame_perform; apply frame_trace, HPsleep.
Qed.
Lemma frame_http_get hs id out : fr (store_http_get_chunk E hs id out).
Proof. unfold store_http_get_chunk, set_url. framer. apply frame_retried. Qed.
Lemma frame_slurp p : fr (slurp_file E p).
Proof. unfold slurp_file. framer. Qed.
Lemma frame_keyspec s : fr (encrypt_parse_keyspec E s).
Proof. unfold encrypt_parse_keyspec, encrypt_parse_keyspec_buf. framer; try apply frame_slurp. Qed.
Lemma frame_handle_params : forall fuel a k, fr (store_handle_params E fuel a k).
Proof. induction fuel; intros; cbn [store_handle_params]; framer; auto. apply frame_keyspec. Qed.
Lemma frame_http_new u : fr (store_http_new E u).
Proof. unfold store_http_new. framer. apply frame_handle_params. Qed.

Lemma frame_store_get s t id out : fr (store_get_chunk E s t id out).
Proof.
  unfold store_get_chunk. destruct s; framer; [apply frame_local_get|apply frame_http_get|apply frame_target_get].
Qed.
Lemma frame_chain_free : forall l, fr (store_chain_free l).
Proof. induction l; cbn [store_chain_free]; framer; auto. apply frame_local_free. Qed.
Lemma frame_chain_new n : fr (store_chain_new n). Proof. unfold store_chain_new. framer. Qed.
Lemma frame_chain_append n l s : fr (store_chain_append n l s). Proof. unfold store_chain_append. framer. Qed.
Lemma frame_append_store tp cp n b a : fr (append_store_from_arg E tp cp n b a).
Proof.
  unfold append_store_from_arg. framer; try apply frame_as_store; try apply frame_http_new; try apply frame_local_new;
    try apply frame_chain_append.
Qed.
Lemma frame_append_stores tp cp n : forall l b, fr (append_stores E tp cp n b l).
Proof. induction l; intros; cbn [append_stores]; framer; auto. apply frame_append_store. Qed.

Hypothesis (HPquery : forall i d, P (TQuery i d)) (HPanswer : forall i r, P (TAnswer i r)).
Lemma frame_chain_loop : forall l i t id out, fr (chain_loop E i l t id out).
Proof.
  induction l as [|ss l IH]; intros; cbn [chain_loop]; framer; auto.
  - apply frame_trace, HPquery.
  - apply frame_store_get.
  - apply frame_trace, HPanswer.
Qed.
Lemma frame_chain_get l t id out : fr (store_chain_get_chunk E l t id out). Proof. apply frame_chain_loop. Qed.
End Functions.
