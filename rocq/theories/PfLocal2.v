(** Fallback of a stale side-loaded index (C24) and small stores (C27). *)
From Coq Require Import Sorting.Permutation Sorting.Sorted.
From Verif Require Import Base Lib Utils Sha Discr Chunker Caibx Index StoreLocal SpecBasic SpecEnv SpecChunker SpecCaibx SpecStore
  PfUtils PfBasic PfIO PfRead PfChunker PfScan PfChunkProps PfCaibx PfCaibx2 PfIndex PfFrame PfLocal.
Ltac Zify.zify_post_hook ::= Z.div_mod_to_equations.
Local Open Scope N_scope.

Lemma error_free_in ev : error_free ev -> ~ In IoErr ev /\ ~ In IoZero ev.
Proof. unfold error_free. rewrite Forall_forall. intros H. split; intros G; apply (H _ G). Qed.

Lemma scanned_exact E p D f z es : scanned E p D f z es -> ~ z -> es = scan_entries E (chunks p D f).
Proof. intros (done & t & H1 & H2 & [->|H3] & ->) Hz; [|contradiction]. rewrite app_nil_r in H2. now rewrite H2, H1. Qed.

(** A store made without an index knows exactly the chunks of its contents. *)
Lemma new_without_index E D p path w ls w' : disc_of p D -> p_max p <= UINT32_MAX -> files_ok w -> ~ In IoZero (w_io w) ->
  store_local_new E path None p w = (Ok (Some ls), w') ->
  ix_entries (ls_idx ls) = scan_entries E (chunks p D (w_files w (ls_ino ls))).
Proof.
  intros Hd Hmax Hf Hz H.
  assert (G : wp (store_local_new E path None p) (fun r _ => match r with
      | Some ls => ix_entries (ls_idx ls) = scan_entries E (chunks p D (w_files w (ls_ino ls))) | None => True end) (fun _ _ => True) w).
  { apply wp_local_new with (b := true) (D := D); auto.
    intros ls1 w1 _ _ _ _ [[_ (ip & Hip)]|[_ Hs]]; [discriminate|]. eapply scanned_exact; eauto. }
  apply (wp_ok _ _ _ _ _ _ _ G) in H. exact H.
Qed.

Lemma answered_found err es f id out r out' : answered err es f id out r out' ->
  (forall e, In e es -> en_id e = id -> en_start e + en_len e <= blen f /\ en_len e <= blen out) -> blen f < OFF_LIMIT -> ~ err ->
  (exists e, In e es /\ en_id e = id) ->
  exists e, In e es /\ en_id e = id /\ r = Some (en_len e) /\ out' = overlay (slice_N (en_start e) (en_len e) f) out /\
    blen (slice_N (en_start e) (en_len e) f) = en_len e.
Proof.
  intros A H Hl He (e0 & I0 & J0). destruct A as [A|e A1 A2 A3|e n A1 A2 A3 A4 A5 A6|e A1 A2 A3 A4 A5].
  - destruct (A e0 I0 J0).
  - destruct (H e A1 A2). lia.
  - destruct (H e A1 A2). destruct A6 as [A6|[A6|A6]]; [contradiction|lia|lia].
  - exists e. auto.
Qed.

(** A request that meets a stale entry. *)
Lemma stale_falls_back E D ls id out w r out' ls' w' :
  qsort_ok E -> bsearch_ok E -> disc_of (ls_params ls) D -> p_max (ls_params ls) <= UINT32_MAX ->
  let f := w_files w (ls_ino ls) in
  blen f < OFF_LIMIT -> w_kcapi w = false \/ kernel_ok (w_kev w) -> ls_ok E true f ls ->
  error_free (w_io w) -> ~ In false (w_alloc w) -> e_kind E (ls_ino ls) <> KOther ->
  (exists e, In e (ix_entries (ls_idx ls)) /\ en_id e = id) ->
  (forall e, In e (ix_entries (ls_idx ls)) -> en_id e = id -> en_start e + en_len e <= blen f /\ en_len e <= blen out /\
     ~ validated e /\ en_len e <> 0 /\ e_H E (slice_N (en_start e) (en_len e) f) <> id) ->
  store_local_get_chunk E ls id out w = (Ok (r, out', ls'), w') ->
  Permutation (ix_entries (ls_idx ls')) (scan_entries E (chunks (ls_params ls) D f)) /\
  exists out1, length out1 = length out /\ answered False (scan_entries E (chunks (ls_params ls) D f)) f id out1 r out'.
Proof.
  intros Hq Hb Hd Hmax f Hlen Hk Hls Hef Hal Hkind (e0 & Hin0 & Hid0) Hst H.
  assert (G : wp (store_local_get_chunk E ls id out) (fun res _ => let '(r, out', ls') := res in
      Permutation (ix_entries (ls_idx ls')) (scan_entries E (chunks (ls_params ls) D f)) /\
      exists out1, length out1 = length out /\ answered False (scan_entries E (chunks (ls_params ls) D f)) f id out1 r out') (fun _ _ => True) w).
  2:{ apply (wp_ok _ _ _ _ _ _ _ G) in H. exact H. }
  destruct (error_free_in _ Hef) as (NE & NZ).
  apply wp_local_get with (b := true) (D := D); auto.
  { intros _. exact Hk. }
  intros [[r1 out1] ls1] tr w1 _ _ Gt. remember (r1, out1, ls1) as res eqn:Er. destruct Gt; injection Er as <- <- <-.
  - exfalso. destruct (answered_found _ _ _ _ _ _ _ H0) as (e & A1 & A2 & -> & -> & A3); auto.
    { intros e He Hi. destruct (Hst e He Hi) as (B1 & B2 & _). auto. }
    { eauto. }
    destruct (Hst e A1 A2) as (_ & _ & B3 & B4 & B5). destruct (H5 _ eq_refl ltac:(lia)) as (_ & B6).
    rewrite firstn_overlay in B6 by (unfold blen in A3; lia). exact (B5 B6).
  - destruct H1 as [C|[C|C]]; contradiction.
  - rewrite (scanned_exact _ _ _ _ _ _ H2 NZ) in *. split; [now symmetry|]. exists out0. split; [assumption|].
    eapply answered_mono; [|eassumption]. intros C. contradiction.
Qed.

(** Small stores *)
Lemma estimate_zero size avg : 0 < avg -> 12 * size < 2 ^ 64 -> (chunk_estimate size avg = 0 <-> 6 * size < 5 * avg).
Proof.
  intros Ha Hs. unfold chunk_estimate, SIZE_MOD. change (2 ^ 64) with 18446744073709551616 in Hs.
  rewrite N.mod_small by lia. rewrite N.div_div by lia.
  split; intros H.
  - apply N.div_small_iff in H; lia.
  - apply N.div_small_iff; lia.
Qed.
Lemma small_store_aborts E path ino p w : e_open E path = Some ino -> e_kind E ino <> KOther ->
  0 < p_avg p -> 6 * blen (w_files w ino) < 5 * p_avg p -> p_avg p < 2 ^ 32 -> ~ In false (w_alloc w) ->
  fst (store_local_new E path None p w) = Abort.
Proof.
  intros Ho Hk Ha Hs Hp Hal.
  assert (G : wp (store_local_new E path None p) (fun _ _ => False) (fun b _ => b = BAbort) w).
  { unfold store_local_new. apply wp_bind, wp_alloc_why; intros al _; [|contradiction]. cbn [negb]. rewrite Ho.
    apply wp_bind, wp_ret, wp_bind. unfold store_scan. apply wp_bind, wp_trace, wp_bind, wp_fd_size; [intros _|cbn; contradiction].
    cbn [ls_params ls_ino set_alloc add_trace w_files]. apply wp_bind. unfold index_init.
    replace (chunk_estimate (blen (w_files w ino)) (p_avg p)) with 0. { apply wp_bind, wp_assert; [discriminate|reflexivity]. }
    symmetry. apply estimate_zero; auto. change (2 ^ 64) with 18446744073709551616. change (2 ^ 32) with 4294967296 in Hp. lia. }
  unfold wp in G. destruct (store_local_new E path None p w) as [[?| | |] ?]; cbn; try contradiction; auto; discriminate.
Qed.
Lemma large_store_safe E path ip D p w : disc_of p D -> 0 < p_avg p -> p_max p <= UINT32_MAX -> files_ok w ->
  (forall ino, e_open E path = Some ino -> 5 * p_avg p <= 6 * blen (w_files w ino) /\ blen (w_files w ino) < 2 ^ 60) -> ip = None ->
  match fst (store_local_new E path ip p w) with Ok _ | Halt => True | Abort | UB => False end.
Proof.
  intros Hd Ha Hmax Hf Hsz ->.
  assert (G : wp (store_local_new E path None p) (fun _ _ => True) (fun b _ => b = BHalt) w).
  { unfold store_local_new. apply wp_bind, wp_alloc_why; intros al _; [|intros _; cbn [negb]; apply wp_ret; exact I].
    cbn [negb]. destruct (e_open E path) as [ino|] eqn:Ho; [|apply wp_ret; exact I].
    destruct (Hsz ino eq_refl) as (S1 & S2).
    apply wp_bind, wp_ret, wp_bind. apply wp_store_scan with (D := D); cbn [ls_params ls_ino]; auto.
    - apply Hf.
    - intros x w1 _ _ _ _ _. apply wp_ret. exact I.
    - intros x w1 _ _. apply wp_ret. exact I.
    - intros w1 _ _ Hz. cbn [set_alloc w_files] in Hz. apply estimate_zero in Hz; auto; [lia|].
      change (2 ^ 60) with 1152921504606846976 in S2. change (2 ^ 64) with 18446744073709551616. lia. }
  unfold wp in G. destruct (store_local_new E path None p w) as [[?| | |] ?]; cbn; auto; discriminate.
Qed.
