(** The local store (C23-C27). *)
From Coq Require Import Sorting.Permutation Sorting.Sorted.
From Verif Require Import Base Lib Utils Sha Discr Chunker Caibx Index StoreLocal SpecBasic SpecEnv SpecChunker SpecCaibx SpecStore
  PfUtils PfBasic PfIO PfRead PfChunker PfScan PfChunkProps PfCaibx PfCaibx2 PfIndex PfFrame.
Ltac Zify.zify_post_hook ::= Z.div_mod_to_equations.
Local Open Scope N_scope.

(** Trace events of stores. *)
Definition store_ev (t : tev) : Prop := match t with TPerform _ | TSleep _ | TScan _ => True | _ => False end.
Definition none (i : nat) : Prop := False.
Definition quiet0 : world -> world -> Prop := quiet none store_ev.
Lemma quiet0_files w w' : quiet0 w w' -> forall i, w_files w' i = w_files w i.
Proof. intros (H & _) i. apply H. exact (fun x => x). Qed.
Lemma quiet0_mode b w w' : quiet0 w w' -> hash_mode b w -> hash_mode b w'.
Proof. intros (_ & _ & _ & H & _) Hm Hb. apply H, Hm, Hb. Qed.
Lemma quiet0_trans a b c : quiet0 a b -> quiet0 b c -> quiet0 a c. Proof. apply quiet_trans. Qed.
Lemma quiet0_refl a : quiet0 a a. Proof. apply quiet_refl. Qed.

(** Adding the frame to a [wp]. *)
Lemma wp_frame S P A (m : M A) (Q : A -> world -> Prop) (R : bad -> world -> Prop) w : frame S P m ->
  wp m (fun a w' => quiet S P w w' -> Q a w') (fun b w' => quiet S P w w' -> R b w') w -> wp m Q R w.
Proof. intros F. specialize (F w). unfold wp. destruct (m w) as [[a| | |] w']; cbn [snd] in F; auto. Qed.

Lemma wp_chunk_id E b d (Q : bytes -> world -> Prop) (R : bad -> world -> Prop) w : hash_mode b w ->
  (forall k kv r, quiet0 w (set_kcapi k kv w) -> hashes E b d r -> (kc_clean w -> r = e_H E d) -> Q r (set_kcapi k kv w)) ->
  (forall kv, quiet0 w (set_kcapi true kv w) -> R BHalt (set_kcapi true kv w)) ->
  wp (chunk_calculate_id E d) Q R w.
Proof.
  intros Hm H1 H2. apply wp_sha_once.
  - intros k kv r Hs Hk _ He Hc. apply H1; [apply quiet_kcapi; [exact Hs|intros K; apply Hk, K]| |exact Hc].
    destruct b; [|destruct He as (s & He & ->); exists s; auto]. cbn. symmetry. apply Hc, Hm. reflexivity.
  - intros kv Hs K. apply H2, quiet_kcapi; [exact Hs|congruence].
Qed.

(** An entry whose bytes in [f] are authentic. *)
Definition ent_good (E : env) (b : bool) (f : bytes) (e : entry) : Prop :=
  (en_start e + en_len e <= blen f \/ en_len e = 0) /\ hashes E b (slice_N (en_start e) (en_len e) f) (en_id e).
Definition validated (e : entry) : Prop := N.land (en_flags e) INDEX_FLAG_VALIDATED <> 0.
Definition ls_ok (E : env) (b : bool) (f : bytes) (ls : lstore) : Prop :=
  idx_ok (ls_idx ls) /\ (forall e, In e (ix_entries (ls_idx ls)) -> validated e -> ent_good E b f e).

(** ** Scanning *)
Definition scan_entry (t : N * N * bytes) : entry := mkEntry (fst (fst t)) (snd (fst t)) 1 (snd t).
Definition scan_entries (E : env) (done : list bytes) : list entry := map scan_entry (tiles E 0 done).

Lemma tiles_good E b : forall done off f t, (N.to_nat off <= length f)%nat -> skipn (N.to_nat off) f = concat done ++ t ->
  Forall (ent_good E b f) (map scan_entry (tiles E off done)).
Proof.
  induction done as [|c done IH]; intros off f t Ho H; cbn [tiles map]; [constructor|].
  cbn [concat] in H.
  assert (L : (length f = N.to_nat off + length c + length (concat done ++ t))%nat).
  { apply (f_equal (@length _)) in H. rewrite skipn_length, !app_length in H. rewrite app_length. lia. }
  constructor.
  - unfold ent_good, scan_entry. cbn [fst snd en_start en_len en_id]. unfold slice_N.
    split; [left; unfold blen in *; lia|]. rewrite H. unfold blen. rewrite Nat2N.id. rewrite <- app_assoc, firstn_exact.
    destruct b; [reflexivity|]. exists c. split; [exists []; reflexivity|reflexivity].
  - apply IH with (t := t); [unfold blen in *; lia|].
    replace (N.to_nat (off + blen c)) with (N.to_nat off + length c)%nat by (unfold blen; lia).
    rewrite skipn_add, H, <- app_assoc, skipn_exact. reflexivity.
Qed.

Lemma done_count p D done : Forall (complete p D) done -> (48 * length done <= length (concat done))%nat.
Proof.
  induction 1 as [|c done H _ IH]; cbn [length concat]; [lia|]. rewrite app_length.
  apply complete_size in H. unfold blen in H. lia.
Qed.
Lemma complete_nonempty p D c : complete p D c -> c <> [].
Proof. intros H ->. apply complete_size in H. unfold blen in H. cbn in H. lia. Qed.

Lemma or_flags_last x e : index_or_flags (mkIndex false (ix_space x) (ix_entries x ++ [e]) PLive) (length (ix_entries x)) 1 =
  mkIndex false (ix_space x) (ix_entries x ++ [mkEntry (en_start e) (en_len e) (N.lor (en_flags e) 1) (en_id e)]) PLive.
Proof.
  unfold index_or_flags. cbn [ix_entries ix_sorted ix_space ix_ptr].
  rewrite nth_error_app2, Nat.sub_diag by lia. cbn [nth_error]. f_equal.
  generalize (ix_entries x). induction l as [|y l IH]; cbn; [reflexivity|now rewrite IH].
Qed.
Lemma or_flags_last' sp es e : index_or_flags (mkIndex false sp (es ++ [e]) PLive) (length es) 1 =
  mkIndex false sp (es ++ [mkEntry (en_start e) (en_len e) (N.lor (en_flags e) 1) (en_id e)]) PLive.
Proof. exact (or_flags_last (mkIndex false sp es PLive) e). Qed.
Lemma or_flags_last0 sp es e : index_or_flags (mkIndex false sp (es ++ [e]) PLive) (length es) 0 = mkIndex false sp (es ++ [e]) PLive.
Proof.
  unfold index_or_flags. cbn [ix_entries ix_sorted ix_space ix_ptr].
  rewrite nth_error_app2, Nat.sub_diag by lia. cbn [nth_error]. f_equal. rewrite N.lor_0_r. destruct e as [a b0 c d]. cbn.
  induction es as [|y l IH]; cbn; [reflexivity|now rewrite IH].
Qed.

Lemma wp_triv A (m : M A) w : wp m (fun _ _ => True) (fun _ _ => True) w.
Proof. unfold wp. destruct (m w) as [[?| | |] ?]; exact I. Qed.
(** A successful scan made at least one read. *)
Lemma scan_uses E A (cb : N -> N -> bytes -> A -> M (bool * A)) ino p a w : (forall o l i x, frame none store_ev (cb o l i x)) ->
  wp (chunker_scan_fd cb E ino p a) (fun _ w' => (length (w_io w') < length (w_io w))%nat) (fun _ _ => True) w.
Proof.
  intros Hcb. unfold chunker_scan_fd. apply wp_bind, wp_lift. destruct (chunker_init p) as [c| | |]; try exact I.
  apply wp_bind. set (st := mkScan c 0 0 a). set (fuel := length (w_io w)).
  assert (G : wp (scan_reads cb E (S fuel) ino 0 st) (fun _ w' => (length (w_io w') < length (w_io w))%nat) (fun _ _ => True) w).
  { cbn [scan_reads].
    match goal with |- wp (bind _ ?k) _ _ _ => assert (F : forall r, frame none store_ev (k r)) end.
    { intros r. destruct r as [[|x d]| |]; framer; try (now apply frame_scan_reads); now apply frame_scan_buf. }
    apply wp_bind. eapply wp_mono with (Q := fun _ w1 => (length (w_io w1) < length (w_io w))%nat) (R := fun _ _ => True); [| |auto].
    { unfold wp, read1. destruct (w_io w) as [|[k| | |] ev]; cbn; auto. }
    intros r w1 L. apply (wp_frame none store_ev); [apply F|].
    (eapply wp_mono; [apply wp_triv| |]; [|auto]); intros a0 w' _ (_ & (pre & Hs) & _).
    apply (f_equal (@length _)) in Hs; rewrite app_length in Hs; lia. }
  unfold fuel in G. unfold wp at 1. unfold wp in G at 1.
  destruct (scan_reads cb E (S (length (w_io w))) ino 0 st w) as [[[ok st']| | |] w1]; auto.
  destruct ok; cbn [negb]; [|apply wp_ret; exact G]. destruct (sc_off st' =? sc_last st'); [apply wp_ret; exact G|].
  apply (wp_frame none store_ev); [apply Hcb|]. unfold wp. destruct (cb _ _ _ _ w1) as [[[ok x]| | |] w2]; auto.
  intros (_ & (pre & Hs) & _). apply (f_equal (@length _)) in Hs. rewrite app_length in Hs. lia.
Qed.

Lemma scan_trace E ls w : wp (store_scan E ls) (fun _ w' => w_trace w' = TScan (ls_ino ls) :: w_trace w)
         (fun _ w' => w_trace w' = TScan (ls_ino ls) :: w_trace w) w.
Proof.
  unfold store_scan. apply wp_bind, wp_trace.
  match goal with |- wp ?m _ _ _ => assert (F : frame none (fun _ => False) m) end.
  { framer; try apply frame_index_init. apply frame_scan_fd. intros; apply frame_insert_index. }
  apply (wp_frame _ _ _ _ _ _ _ F). eapply wp_mono; [apply wp_triv| |].
  - intros a w' _ (_ & _ & _ & _ & ([|t tr] & Ht & Hn)); [exact Ht|inversion Hn; contradiction].
  - intros a w' _ (_ & _ & _ & _ & ([|t tr] & Ht & Hn)); [exact Ht|inversion Hn; contradiction].
Qed.

(** What a scan of the whole store [f] has found: all chunks of what was read. *)
Definition scanned (E : env) (p : params) (D : N) (f : bytes) (zero : Prop) (es : list entry) : Prop :=
  exists done t, chunks p D (concat done) = done /\ f = concat done ++ t /\ (t = [] \/ zero) /\ es = scan_entries E done.

Section Scan.
Variables (E : env) (ls : lstore) (D : N) (w : world).
Let f := w_files w (ls_ino ls).
Let p := ls_params ls.
Hypothesis (Hd : disc_of p D) (Hmax : p_max p <= UINT32_MAX) (Hlen : blen f < OFF_LIMIT).

Lemma wp_store_scan (Q : bool * lstore -> world -> Prop) (R : bad -> world -> Prop) :
  (forall x w', quiet0 w w' -> idx_ok x -> scanned E p D f (In IoZero (w_io w)) (ix_entries x) ->
     (length (w_io w') < length (w_io w))%nat -> e_kind E (ls_ino ls) <> KOther -> Q (true, set_idx ls x) w') ->
  (forall x w', quiet0 w w' -> (e_kind E (ls_ino ls) = KOther /\ x = ls_idx ls \/
        ix_ptr x <> PFreed /\ (In false (w_alloc w) \/ In IoErr (w_io w))) -> Q (false, set_idx ls x) w') ->
  (forall w', quiet0 w w' -> e_kind E (ls_ino ls) <> KOther -> chunk_estimate (blen f) (p_avg p) = 0 -> R BAbort w') ->
  (forall w', quiet0 w w' -> R BHalt w') ->
  wp (store_scan E ls) Q R w.
Proof.
  intros H1 H2 H3 H4. apply (wp_frame none store_ev); [apply frame_store_scan; intros; exact I|]. fold quiet0.
  unfold store_scan. apply wp_bind, wp_trace, wp_bind, wp_fd_size; intros Hk.
  2:{ apply wp_ret. intros Hq. assert (Els : ls = set_idx ls (ls_idx ls)) by (destruct ls; reflexivity). rewrite Els at 1. apply H2; auto. }
  cbn [add_trace w_files]. fold f p. apply wp_bind, wp_index_init.
  - intros Hz Hq. apply H3; auto.
  - intros al Ha Hn Hx0. cbn [negb]. apply wp_bind.
    set (w1 := set_alloc al (add_trace (TScan (ls_ino ls)) w)).
    set (Inv := fun (done : list bytes) (x : index) (w' : world) =>
      idx_ok x /\ ix_entries x = scan_entries E done /\ w_files w' (ls_ino ls) = f /\ suffix (w_io w') (w_io w) /\
      incl (w_alloc w') (w_alloc w)).
    assert (G := scan_fd_rule (store_insert_index INDEX_FLAG_VALIDATED) E p D Hd Hmax f Inv
        (fun x w' => ix_ptr x <> PFreed /\ (In false (w_alloc w) \/ In IoErr (w_io w)) /\ suffix (w_io w') (w_io w))
        (fun b w' => b = BHalt)).
    assert (U := scan_uses E index (store_insert_index INDEX_FLAG_VALIDATED) (ls_ino ls) p
                   (mkIndex false (chunk_estimate (blen f) (p_avg p)) [] PLive) w1 ltac:(intros; apply frame_insert_index)).
    eapply wp_mono; [apply wp_conj; [exact U|apply G with (ino := ls_ino ls) (T0 := 0%nat) (zero := In IoZero (w_io w))]| |]; clear U G.
    + intros done c x w' Hp (Hx & He & Hf & Hs & Hal). unfold store_insert_index.
      destruct Hp as (P1 & P2 & t & P3).
      assert (Lc : (48 * length done + length c <= length f)%nat).
      { pose proof (done_count _ _ _ P1). apply (f_equal (@length _)) in P3. rewrite !app_length in P3. lia. }
      assert (Nn : n_entries x = N.of_nat (length done)).
      { unfold n_entries. rewrite He. unfold scan_entries. rewrite map_length. f_equal.
        assert (GT : forall l o, length (tiles E o l) = length l) by (induction l; intros; cbn; auto). apply GT. }
      assert (Hc0 : c <> []) by (destruct P2 as [P2|[P2 _]]; [apply (complete_nonempty p D), P2|exact P2]).
      apply wp_bind, wp_index_insert; auto.
      * rewrite Nn. unfold blen, OFF_LIMIT in Hlen. change (2 ^ 64) with 18446744073709551616. lia.
      * intros Hz. destruct c; [contradiction|]. unfold blen in Hz. cbn in Hz. lia.
      * intros al' space Ha' _ Hx'. apply wp_ret. split; [reflexivity|]. cbn [fst snd].
        change INDEX_FLAG_VALIDATED with 1. rewrite or_flags_last'. cbn [en_start en_len en_flags en_id].
        split; [|split; [|split; [exact Hf|split; [exact Hs|]]]].
        -- destruct Hx' as (A1 & A2 & A3). split; [reflexivity|]. split; [|discriminate].
           unfold n_entries in *. cbn [ix_entries ix_space] in *. rewrite app_length in *. exact A2.
        -- cbn [ix_entries]. rewrite He. unfold scan_entries. rewrite tiles_app, map_app. reflexivity.
        -- cbn. eapply incl_tran; eauto.
      * intros al' Ha' Hin _. apply wp_ret. cbn [fst snd]. split; [reflexivity|]. destruct Hx as (Hx & _).
        split; [congruence|]. split; [left; apply Hal, Hin|exact Hs].
    + intros done x w' (_ & _ & Hf & _). exact Hf.
    + intros done x w' e ev (B1 & B2 & B3 & B4 & B5) Ew. split; [exact B1|]. split; [exact B2|]. split; [exact B3|].
      split; [|exact B5]. cbn. eapply suffix_trans; [|exact B4]. rewrite Ew. apply suffix_cons, suffix_refl.
    + intros done x w' ev ((B1 & _) & B2 & B3 & B4 & B5) Ew. split; [congruence|]. split.
      * right. destruct B4 as [pre ->]. rewrite Ew. apply in_or_app. right. now left.
      * cbn. eapply suffix_trans; [|exact B4]. rewrite Ew. apply suffix_cons, suffix_refl.
    + intros. reflexivity.
    + intros done x w' ev (B1 & B2 & B3 & B4 & B5) Ew. destruct B4 as [pre ->]. rewrite Ew. apply in_or_app. right. now left.
    + split; [exact Hx0|]. split; [reflexivity|]. split; [reflexivity|]. split; [apply suffix_refl|exact Ha].
    + lia.
    + intros [ok x] w' [U G]. apply wp_ret. intros Hq. cbn [fst snd] in G. destruct ok.
      * destruct G as (done & t & G1 & G2 & G3 & (I1 & I2 & _)). apply H1; auto. exists done, t. auto.
      * destruct G as (G1 & G2 & _). apply H2; auto.
    + intros b w' [_ ->] Hq. apply H4, Hq.
  - intros al Ha Hin Hn. cbn [negb]. apply wp_ret. intros Hq. apply H2; auto. right. split; [discriminate|auto].
Qed.
End Scan.

(** ** Requests *)
(** What can be answered from a list of entries for the contents [f]; [err]: reads may fail. *)
Inductive answered (err : Prop) (es : list entry) (f id out : bytes) : option N -> bytes -> Prop :=
| ans_absent : (forall e, In e es -> en_id e <> id) -> answered err es f id out (Some 0) out
| ans_long e : In e es -> en_id e = id -> blen out < en_len e -> answered err es f id out None out
| ans_failed e n : In e es -> en_id e = id -> en_len e <= blen out -> N.of_nat n < en_len e ->
    length (slice_N (en_start e) (N.of_nat n) f) = n -> err \/ blen f < en_start e + en_len e \/ OFF_LIMIT <= en_start e ->
    answered err es f id out None (overlay (slice_N (en_start e) (N.of_nat n) f) out)
| ans_hit e : In e es -> en_id e = id -> en_len e <= blen out -> en_start e + en_len e <= blen f \/ en_len e = 0 ->
    blen (slice_N (en_start e) (en_len e) f) = en_len e ->
    answered err es f id out (Some (en_len e)) (overlay (slice_N (en_start e) (en_len e) f) out).

Lemma answered_length err es f id out r out' : answered err es f id out r out' -> length out' = length out.
Proof.
  intros []; auto; apply length_overlay.
  - unfold blen in *. lia.
  - unfold blen in *. lia.
Qed.
Lemma answered_mono (err err' : Prop) es f id out r out' : (err -> err') -> answered err es f id out r out' -> answered err' es f id out r out'.
Proof. intros H []; [constructor 1; auto|econstructor 2; eauto|econstructor 3; eauto; tauto|econstructor 4; eauto]. Qed.
Lemma answered_good E b err es f id out n out' : (forall e, In e es -> ent_good E b f e) ->
  answered err es f id out (Some n) out' -> 0 < n -> n <= blen out /\ hashes E b (firstn (N.to_nat n) out') id.
Proof.
  intros H A Hn. remember (Some n) as r eqn:Er. destruct A; try discriminate; injection Er as <-; [lia|].
  split; [assumption|]. rewrite firstn_overlay by (unfold blen in *; lia). destruct (H e H0) as (_ & G). now rewrite H1 in G.
Qed.

(** The entry found first does not hash to its id. *)
Definition stale (E : env) (f : bytes) (es : list entry) (id out : bytes) (w : world) : Prop :=
  exists e, In e es /\ en_id e = id /\ ~ validated e /\ en_len e <= blen out /\ (en_start e + en_len e <= blen f \/ en_len e = 0) /\
    (kc_clean w -> e_H E (slice_N (en_start e) (en_len e) f) <> id).

Inductive got (E : env) (b : bool) (D : N) (f : bytes) (ls : lstore) (id out : bytes) (w : world)
  : option N * bytes * lstore -> list tev -> Prop :=
| got_first r out' x' : answered (~ error_free (w_io w)) (ix_entries (ls_idx ls)) f id out r out' -> idx_ok x' ->
    (forall e', In e' (ix_entries x') -> validated e' -> ent_good E b f e') ->
    n_entries x' = n_entries (ls_idx ls) ->
    (forall e', In e' (ix_entries x') -> exists e, In e (ix_entries (ls_idx ls)) /\ en_start e' = en_start e /\ en_len e' = en_len e /\
       en_id e' = en_id e /\ (validated e -> validated e')) ->
    (forall n, r = Some n -> 0 < n -> n <= blen out /\ hashes E b (firstn (N.to_nat n) out') id) ->
    got E b D f ls id out w (r, out', set_idx ls x') []
| got_rescan_fail out' x : stale E f (ix_entries (ls_idx ls)) id out w ->
    (e_kind E (ls_ino ls) = KOther \/ In false (w_alloc w) \/ In IoErr (w_io w)) ->
    length out' = length out -> (ix_ptr x = PFreed -> e_kind E (ls_ino ls) = KOther) ->
    got E b D f ls id out w (None, out', set_idx ls x) [TScan (ls_ino ls)]
| got_rescan out1 r out' x x' : stale E f (ix_entries (ls_idx ls)) id out w ->
    length out1 = length out ->
    scanned E (ls_params ls) D f (In IoZero (w_io w)) (ix_entries x) ->
    answered (~ error_free (w_io w)) (ix_entries x) f id out1 r out' ->
    Permutation (ix_entries x) (ix_entries x') -> idx_ok x' ->
    got E b D f ls id out w (r, out', set_idx ls x') [TScan (ls_ino ls)].

Lemma scanned_flags E p D f z es : scanned E p D f z es -> forall e, In e es -> validated e.
Proof.
  intros (done & t & _ & _ & _ & ->) e He. apply in_map_iff in He as (x & <- & _). unfold validated, scan_entry. cbn. discriminate.
Qed.
Lemma scanned_good E b p D f z es : scanned E p D f z es -> forall e, In e es -> ent_good E b f e.
Proof.
  intros (done & t & _ & Hf & _ & ->) e He. revert e He. apply Forall_forall.
  apply tiles_good with (t := t); [cbn; lia|exact Hf].
Qed.

Lemma validated_flag e : negb (N.land (en_flags e) INDEX_FLAG_VALIDATED =? 0) = true <-> validated e.
Proof. unfold validated. destruct (N.eqb_spec (N.land (en_flags e) INDEX_FLAG_VALIDATED) 0); cbn; split; congruence. Qed.

Section Get.
Variables (E : env) (b : bool) (D : N) (id : bytes).
Hypothesis (Hq : qsort_ok E) (Hb : bsearch_ok E).

(** One iteration up to the read. *)
Lemma wp_get_read k ls out w (f : bytes) (Q : option N * bytes * lstore -> world -> Prop) (R : bad -> world -> Prop) :
  f = w_files w (ls_ino ls) -> idx_ok (ls_idx ls) ->
  (forall r out' x', answered (~ error_free (w_io w)) (ix_entries (ls_idx ls)) f id out r out' -> idx_ok x' ->
     Permutation (ix_entries (ls_idx ls)) (ix_entries x') -> forall ev, suffix ev (w_io w) ->
     (forall n, r = Some n -> 0 < n -> exists e, In e (ix_entries x') /\ validated e /\ en_id e = id /\ en_len e = n /\
         out' = overlay (slice_N (en_start e) (en_len e) f) out /\ blen (slice_N (en_start e) (en_len e) f) = en_len e) ->
     Q (r, out', set_idx ls x') (set_io ev w)) ->
  (forall ev, R BHalt (set_io ev w)) ->
  (forall x' pos e ev, idx_ok x' -> Permutation (ix_entries (ls_idx ls)) (ix_entries x') -> nth_error (ix_entries x') pos = Some e ->
     en_id e = id -> ~ validated e -> en_len e <= blen out -> en_start e + en_len e <= blen f \/ en_len e = 0 -> suffix ev (w_io w) ->
     blen (slice_N (en_start e) (en_len e) f) = en_len e ->
     wp (actual <- chunk_calculate_id E (slice_N (en_start e) (en_len e) f) ;;
            if beq id actual then
              ret (Some (en_len e), overlay (slice_N (en_start e) (en_len e) f) out,
                   set_idx ls (index_or_flags x' pos INDEX_FLAG_VALIDATED))
            else
              x <- index_cleanup x' ;;
              '(ok, ls) <- store_scan E (set_idx (set_idx ls x') x) ;;
              if negb (ok : bool) then ret (None, overlay (slice_N (en_start e) (en_len e) f) out, ls)
              else local_get_loop E k ls id (overlay (slice_N (en_start e) (en_len e) f) out)) Q R (set_io ev w)) ->
  wp (local_get_loop E (S k) ls id out) Q R w.
Proof.
  intros Hf Hx H1 H3 H2. cbn [local_get_loop]. apply wp_bind, wp_index_query; auto.
  - intros pos x' e Hx' P' N1 N2. cbn zeta iota. apply wp_bind. eapply wp_index_get; [exact N1|].
    assert (Hin : In e (ix_entries (ls_idx ls))) by (rewrite P'; eapply nth_error_In; eauto).
    destruct (blen out <? en_len e) eqn:El.
    + apply wp_ret. rewrite <- (set_io_id w). eapply H1; eauto using suffix_refl; [econstructor 2; eauto; lia|discriminate].
    + apply wp_bind, wp_pread; cbn [set_idx ls_ino]; rewrite <- ?Hf.
      * intros ev Hs Hr Ho Hbl _. cbn iota. cbn zeta. cbn [negb].
        destruct (negb (N.land (en_flags e) INDEX_FLAG_VALIDATED =? 0)) eqn:Ev.
        -- apply wp_ret. eapply H1; eauto; [econstructor 4; eauto; lia|].
           intros n Hn Hn0. injection Hn as <-. exists e. apply validated_flag in Ev. repeat split; auto.
           eapply nth_error_In; eauto.
        -- rewrite firstn_overlay by (unfold blen in Hbl; lia). apply H2; auto; try lia.
           rewrite <- validated_flag. congruence.
      * intros ev n Hs Hn Hl He. cbn [negb]. apply wp_ret. eapply H1; eauto; [econstructor 3; eauto; lia|discriminate].
      * intros _. apply H3.
  - intros x' Hx' P' Hno. cbn zeta iota. apply wp_ret. rewrite <- (set_io_id w). eapply H1; eauto using suffix_refl; [constructor 1; auto|].
    intros n Hn Hn0. injection Hn as <-. lia.
Qed.

Lemma perm_good x x' f : Permutation (ix_entries x) (ix_entries x') ->
  (forall e, In e (ix_entries x) -> validated e -> ent_good E b f e) ->
  forall e, In e (ix_entries x') -> validated e -> ent_good E b f e.
Proof. intros P H e He. apply H. now rewrite P. Qed.

Lemma or_flags_spec x pos e : nth_error (ix_entries x) pos = Some e -> idx_ok x ->
  idx_ok (index_or_flags x pos INDEX_FLAG_VALIDATED) /\
  n_entries (index_or_flags x pos INDEX_FLAG_VALIDATED) = n_entries x /\
  forall e', In e' (ix_entries (index_or_flags x pos INDEX_FLAG_VALIDATED)) ->
    In e' (ix_entries x) \/ e' = mkEntry (en_start e) (en_len e) (N.lor (en_flags e) 1) (en_id e).
Proof.
  intros Hn (H1 & H2 & H3). unfold index_or_flags. rewrite Hn. set (e1 := mkEntry _ _ _ _).
  assert (L : length (upd_nth pos e1 (ix_entries x)) = length (ix_entries x)) by apply length_upd_nth.
  split; [|split].
  - split; [exact H1|]. split; [unfold n_entries in *; cbn [ix_entries ix_space]; lia|]. cbn [ix_sorted ix_entries]. intros Hs.
    specialize (H3 Hs). unfold ids_sorted in *. clear - H3 Hn. revert pos Hn. induction H3 as [|y l S IH F]; intros pos Hn; [destruct pos; discriminate|].
    destruct pos as [|pos]; cbn [upd_nth].
    + injection Hn as <-. constructor; [exact S|exact F].
    + constructor; [apply IH, Hn|]. cbn in Hn. apply Forall_forall. intros z Hz. rewrite Forall_forall in F.
      apply In_nth_error in Hz as (j & Hj). rewrite nth_error_upd_nth in Hj.
      destruct ((j =? pos)%nat && (pos <? length l)%nat).
      * injection Hj as <-. cbn. apply F. eapply nth_error_In; eauto.
      * apply F. eapply nth_error_In; eauto.
  - unfold n_entries. cbn [ix_entries]. now rewrite L.
  - cbn [ix_entries]. intros e' He'. apply In_nth_error in He' as (j & Hj). rewrite nth_error_upd_nth in Hj.
    destruct (_ && _); [right; now injection Hj as <-|left; eapply nth_error_In; eauto].
Qed.

Definition got_trace (t t' : list tev) : Prop := exists tr, t' = tr ++ t /\ (length tr <= 1)%nat.

Lemma wp_local_get ls out w (Q : option N * bytes * lstore -> world -> Prop) (R : bad -> world -> Prop) :
  let f := w_files w (ls_ino ls) in
  disc_of (ls_params ls) D -> p_max (ls_params ls) <= UINT32_MAX -> blen f < OFF_LIMIT -> hash_mode b w ->
  ls_ok E b f ls ->
  (forall r tr w', quiet0 w w' -> w_trace w' = tr ++ w_trace w -> got E b D f ls id out w r tr -> Q r w') ->
  (forall w', quiet0 w w' -> (exists tr, w_trace w' = tr ++ w_trace w /\ (tr = [] \/ tr = [TScan (ls_ino ls)] /\ stale E f (ix_entries (ls_idx ls)) id out w)) -> R BHalt w') ->
  (forall w', quiet0 w w' -> w_trace w' = TScan (ls_ino ls) :: w_trace w -> e_kind E (ls_ino ls) <> KOther ->
     chunk_estimate (blen f) (p_avg (ls_params ls)) = 0 -> stale E f (ix_entries (ls_idx ls)) id out w -> R BAbort w') ->
  wp (store_local_get_chunk E ls id out) Q R w.
Proof.
  intros f Hd Hmax Hlen Hm (Hx & Hgood) HQ HH HA. unfold store_local_get_chunk.
  apply (wp_frame none store_ev).
  { apply (frame_local_get none store_ev E (fun _ => I) ls id out). }
  fold quiet0. change (wp (local_get_loop E (S (length (w_io w))) ls id out) (fun a w' => quiet0 w w' -> Q a w')
    (fun b0 w' => quiet0 w w' -> R b0 w') w).
  apply wp_get_read with (f := f); auto.
  - intros r out' x' HAns Hx' P ev Hs Hhit Hquiet. apply HQ with (tr := []); auto. constructor; auto.
    + eapply perm_good; eauto.
    + now apply n_entries_perm.
    + intros e' He'. exists e'. split; [now rewrite P|]. auto.
    + intros n -> Hn. destruct (Hhit n eq_refl Hn) as (e & B1 & B2 & B3 & B4 & B5 & B6).
      assert (B7 : ent_good E b f e) by (apply Hgood; [now rewrite P|exact B2]). destruct B7 as (B7 & B8).
      rewrite B5, firstn_overlay by (unfold blen in B6; lia). rewrite <- B3 at 1. split; [|exact B8].
      apply answered_length in HAns. rewrite B5 in HAns. unfold overlay in HAns. rewrite app_length, skipn_length in HAns.
      unfold blen in *. lia.
  - intros ev Hquiet. apply HH; auto. exists []. auto.
  - intros x' pos e ev Hx' P N1 N2 Nv Ll Lr Hs Hbl. apply wp_bind.
    assert (Hin : In e (ix_entries (ls_idx ls))) by (rewrite P; eapply nth_error_In; eauto).
    assert (Qio : quiet0 w (set_io ev w)) by (apply quiet_io, Hs).
    apply wp_chunk_id with (b := b); [exact Hm| |intros kv Q2 Hquiet; apply HH; [exact Hquiet|exists []; auto]].
    intros k kv actual Q2 Hh Hcl. destruct (beq id actual) eqn:Eb.
    + apply wp_ret. intros Hquiet. apply beq_eq in Eb. subst actual.
      destruct (or_flags_spec x' pos e N1 Hx') as (K1 & K2 & K3).
      apply HQ with (tr := []); [exact Hquiet|reflexivity|]. constructor.
      * econstructor 4; eauto.
      * exact K1.
      * intros e' He' V. destruct (K3 e' He') as [K| ->]; [apply Hgood; [now rewrite P|exact V]|].
        unfold ent_good. cbn [en_start en_len en_id]. rewrite N2. split; [exact Lr|exact Hh].
      * rewrite K2. now apply n_entries_perm.
      * intros e' He'. destruct (K3 e' He') as [K| ->].
        -- exists e'. split; [now rewrite P|auto].
        -- exists e. split; [exact Hin|]. cbn. repeat split; auto. intros V. contradiction.
      * intros n Hn Hn0. injection Hn as <-. split; [exact Ll|]. rewrite firstn_overlay by (unfold blen in Hbl; lia). exact Hh.
    + assert (Hst : stale E f (ix_entries (ls_idx ls)) id out w).
      { exists e. repeat split; auto. intros C G. apply beq_neq in Eb. apply Eb. symmetry. rewrite Hcl; auto. }
      apply wp_bind. unfold index_cleanup. destruct Hx' as (Hp' & _). rewrite Hp'. apply wp_ret, wp_bind.
      set (out1 := overlay _ out). assert (Lo : length out1 = length out).
      { apply length_overlay. unfold blen in *. lia. }
      set (w1 := set_kcapi k kv (set_io ev w)). set (ls1 := set_idx (set_idx ls x') _).
      assert (Q1 : quiet0 w w1) by (eapply quiet0_trans; eauto).
      pose proof (quiet0_files _ _ Q1) as F1.
      assert (T1 : wp (store_scan E ls1) (fun _ w' => w_trace w' = TScan (ls_ino ls) :: w_trace w)
         (fun _ w' => w_trace w' = TScan (ls_ino ls) :: w_trace w) w1).
      { exact (scan_trace E ls1 w1). }
      eapply wp_mono.
      { apply wp_conj; [exact T1|].
        apply (wp_store_scan E ls1 D w1) with
          (Q := fun r w2 => (exists ok x, r = (ok, set_idx ls x) /\ quiet0 w w2 /\ (if ok : bool then idx_ok x /\ (length (w_io w2) < length (w_io w))%nat /\
              scanned E (ls_params ls) D f (In IoZero (w_io w)) (ix_entries x) else 
              (e_kind E (ls_ino ls) = KOther \/ In false (w_alloc w) \/ In IoErr (w_io w)) /\ (ix_ptr x = PFreed -> e_kind E (ls_ino ls) = KOther))))
          (R := fun b0 w2 => quiet0 w w2 /\ (b0 = BHalt \/ b0 = BAbort /\ e_kind E (ls_ino ls) <> KOther /\
                 chunk_estimate (blen f) (p_avg (ls_params ls)) = 0)); cbn [ls1 set_idx ls_ino ls_params]; rewrite ?F1; auto.
        - intros x w2 Q3 I1 I2 I3 I4. exists true, x. split; [reflexivity|]. split; [eapply quiet0_trans; eauto|].
          split; [exact I1|]. destruct Q1 as (_ & (pre & Hpre) & _). split.
          + apply (f_equal (@length _)) in Hpre. rewrite app_length in Hpre. cbn in *. lia.
          + destruct I2 as (done & t & J1 & J2 & J3 & J4). exists done, t. repeat split; auto.
            destruct J3; auto. right. rewrite Hpre. apply in_or_app. auto.
        - intros x w2 Q3 I1. exists false, x. split; [reflexivity|]. split; [eapply quiet0_trans; eauto|].
          destruct Q1 as (_ & (pre & Hpre) & Hal & _). destruct I1 as [[I1 I2]|[I1 I2]]; [auto|].
          split; [|congruence]. right. destruct I2 as [I2|I2]; [left; apply Hal, I2|right; rewrite Hpre; apply in_or_app; auto].
        - intros w2 Q3 I1 I2. split; [eapply quiet0_trans; eauto|auto].
        - intros w2 Q3. split; [eapply quiet0_trans; eauto|auto]. }
      2:{ intros b0 w2 (Ht & Q2' & [->|(-> & K1 & K2)]) Hquiet; [apply HH; auto; exists [TScan (ls_ino ls)]; auto|apply HA; auto]. }
      intros r w2 (Ht & ok & x & -> & Q3 & G). destruct ok; cbn [negb].
      2:{ apply wp_ret. intros Hquiet. destruct G as (G1 & G2). apply HQ with (tr := [TScan (ls_ino ls)]); auto. constructor; auto. }
      destruct G as (G1 & G2 & G3). destruct (length (w_io w)) as [|m] eqn:Em; [lia|].
      pose proof (quiet0_files _ _ Q3 (ls_ino ls)) as F3.
      apply wp_get_read with (f := f); auto.
      * intros r out' x2 A2 Hx2 P2 ev2 Hs2 _ Hquiet. apply HQ with (tr := [TScan (ls_ino ls)]); auto.
        change (set_idx (set_idx ls x) x2) with (set_idx ls x2). apply got_rescan with (out1 := out1) (x := x); auto.
        eapply answered_mono; [|exact A2]. intros C C2. apply C. destruct Q3 as (_ & Hsuf & _). eapply error_free_suffix; eauto.
      * intros ev2 Hquiet. apply HH; auto. exists [TScan (ls_ino ls)]. auto.
      * intros x2 pos2 e2 ev2 Hx2 P2 N3 N4 N5. exfalso. apply N5. eapply scanned_flags; [exact G3|].
        cbn [set_idx ls_idx] in P2. rewrite P2. eapply nth_error_In; eauto.
Qed.
End Get.

(** ** Side-loading *)
Definition silent : world -> world -> Prop := quiet none (fun _ => False).
Lemma silent_trace w w' : silent w w' -> w_trace w' = w_trace w.
Proof. intros (_ & _ & _ & _ & ([|t tr] & Ht & Hn)); [exact Ht|inversion Hn; contradiction]. Qed.
Lemma quiet_weaken S (P P' : tev -> Prop) w w' : (forall t, P t -> P' t) -> quiet S P w w' -> quiet S P' w w'.
Proof.
  intros H (A1 & A2 & A3 & A4 & (tr & A5 & A6)). repeat (split; [assumption|]). exists tr. split; [exact A5|].
  eapply Forall_impl; [|exact A6]. auto.
Qed.
Lemma silent_quiet0 w w' : silent w w' -> quiet0 w w'. Proof. apply quiet_weaken. contradiction. Qed.
Lemma quiet0_files_ok w w' : quiet0 w w' -> files_ok w -> files_ok w'.
Proof. intros Q H i. rewrite (quiet0_files _ _ Q). apply H. Qed.

(** An entry made from entry [i] of index file [g]. *)
Definition from_index (g : bytes) (n : nat) (e : entry) : Prop :=
  exists i last, (i < n)%nat /\ e = mkEntry last (ent_len g last i mod 2 ^ 32) 0 (ent_id g i) /\ en_len e <> 0.
Lemma from_index_flags g n e : from_index g n e -> ~ validated e.
Proof. intros (i & last & _ & -> & _). unfold validated. cbn. auto. Qed.

Lemma wp_sideload E ls path w (Q : bool * lstore -> world -> Prop) (R : bad -> world -> Prop) :
  files_ok w ->
  (forall x w', silent w w' -> Q (false, set_idx ls x) w') ->
  (forall x ino p n w', silent w w' -> e_open E path = Some ino -> valid_index (w_files w ino) p n -> idx_ok x ->
     p_min p = p_min (ls_params ls) -> p_avg p = p_avg (ls_params ls) -> p_max p = p_max (ls_params ls) -> n <> 0 ->
     Forall (from_index (w_files w ino) (N.to_nat n)) (ix_entries x) -> Q (true, set_idx ls x) w') ->
  (forall b w', silent w w' -> b <> BUB -> R b w') ->
  wp (store_sideload_index E ls path) Q R w.
Proof.
  intros Hf H1 H2 H3. apply (wp_frame none (fun _ => False)); [apply frame_sideload|]. fold silent.
  assert (Els : set_idx ls (ls_idx ls) = ls) by (destruct ls; reflexivity).
  unfold store_sideload_index. destruct (e_open E path) as [ino|] eqn:Eo.
  2:{ apply wp_ret. intros. rewrite <- Els at 1. apply H1. assumption. }
  destruct (Hf ino) as (Hok & Hlim).
  apply wp_bind. pose proof (load_header_spec E ino _ Hok w eq_refl Hlim) as L. unfold wp at 1.
  destruct (caibx_load_header E ino w) as [[[[cp n]|]| | |] w1]; try contradiction.
  3:{ intros. apply H3; auto. discriminate. }
  2:{ apply wp_ret. intros. rewrite <- Els at 1. apply H1. assumption. }
  destruct L as ((ev & -> & Hs & _) & V & _).
  destruct (negb _) eqn:Ep. { apply wp_ret. intros. rewrite <- Els at 1. apply H1. assumption. }
  apply wp_bind, wp_index_init.
  { intros _ Hq. apply H3; auto. discriminate. }
  2:{ intros al Ha Hin Hn. cbn [negb]. apply wp_ret. intros. apply H1. assumption. }
  intros al Ha Hn Hx0. cbn [negb]. apply wp_bind.
  set (g := w_files w ino) in *. set (m := N.to_nat n).
  assert (Lm : (64 + 40 * m <= length g)%nat). { destruct V as (V & _). unfold blen in V. unfold m. lia. }
  replace n with (N.of_nat m) at 1 by (unfold m; lia).
  eapply wp_mono; [apply (iterate_rule (store_insert_index 0) ino cp g m Hok Lm Hlim) with
     (Inv := fun (i : nat) (last : N) (x : index) (w' : world) => w_files w' ino = g /\ idx_ok x /\ n_entries x <= N.of_nat i /\
               (i <= m)%nat /\ Forall (from_index g m) (ix_entries x))
     (Fail := fun x (w' : world) => ix_ptr x = PLive) (R := fun b (w' : world) => b <> BUB)| |].
  - intros i last x w' (A & _). exact A.
  - intros i last x w' ev' Hi (I1 & I2 & I3 & I4 & I5) Hs' _. destruct (skipped cp g m last i).
    + split; [exact I1|]. split; [exact I2|]. split; [lia|]. split; [lia|exact I5].
    + unfold store_insert_index. apply wp_bind, wp_index_insert; auto.
      * unfold blen, OFF_LIMIT in Hlim. change (2 ^ 64) with 18446744073709551616. lia.
      * discriminate.
      * intros al' sp Ha' Hl Hx'. apply wp_ret. cbn [fst snd].
        rewrite or_flags_last0. split; [exact I1|]. split; [exact Hx'|].
        unfold n_entries in *. cbn [ix_entries]. rewrite app_length. cbn [length].
        split; [lia|]. split; [lia|]. apply Forall_app. split; [exact I5|]. constructor; [|constructor].
        exists i, last. split; [exact Hi|]. split; [reflexivity|exact Hl].
      * intros al' _ _ _. apply wp_ret. cbn [fst snd]. apply I2.
  - intros i last x w' ev' _ (_ & I2 & _) _ _. apply I2.
  - intros. discriminate.
  - split; [reflexivity|]. split; [exact Hx0|]. cbn. split; [lia|]. split; [lia|constructor].
  - intros [ok x] w' G. cbn [fst snd] in G. destruct ok; cbn [negb].
    + destruct G as (last' & _ & I2 & _ & _ & I5). apply wp_ret. intros Hq.
      apply (H2 x ino cp n w'); auto; lia.
    + apply wp_bind. unfold index_cleanup. rewrite G. apply wp_ret, wp_ret. intros. apply H1. assumption.
  - intros b w' Hb Hq. apply H3; auto.
Qed.

Section New.
Variables (E : env) (b : bool) (D : N) (cp : params).
Hypothesis (Hd : disc_of cp D) (Hmax : p_max cp <= UINT32_MAX).

Definition is_scan (t : tev) : bool := match t with TScan _ => true | _ => false end.
Definition scans (w : world) : nat := length (filter is_scan (w_trace w)).
Definition all_validated (ls : lstore) : Prop := forall e, In e (ix_entries (ls_idx ls)) -> validated e.

Lemma wp_local_new path ip w (Q : option lstore -> world -> Prop) (R : bad -> world -> Prop) :
  files_ok w ->
  (forall w', quiet0 w w' -> (scans w' <= S (scans w))%nat -> Q None w') ->
  (forall ls w', quiet0 w w' -> e_open E path = Some (ls_ino ls) -> ls_params ls = cp -> ls_ok E b (w_files w (ls_ino ls)) ls ->
     (scans w' = scans w /\ (exists ipath, ip = Some ipath) \/
      scans w' = S (scans w) /\ scanned E cp D (w_files w (ls_ino ls)) (In IoZero (w_io w)) (ix_entries (ls_idx ls))) ->
     Q (Some ls) w') ->
  (forall bd w', quiet0 w w' -> (scans w' <= S (scans w))%nat -> bd <> BUB -> R bd w') ->
  wp (store_local_new E path ip cp) Q R w.
Proof.
  intros Hf H1 H2 H3. apply (wp_frame none store_ev); [apply frame_local_new; intros; exact I|]. fold quiet0.
  unfold store_local_new. apply wp_bind, wp_alloc_why.
  2:{ intros al _ _. apply wp_ret. intros Hq. apply H1; auto. }
  intros al Ha. cbn [negb]. destruct (e_open E path) as [ino|] eqn:Eo.
  2:{ apply wp_ret. intros Hq. apply H1; auto. }
  set (w1 := set_alloc al w). set (ls0 := mkLStore ino index_zero cp).
  assert (Q1 : silent w w1) by (apply quiet_alloc, Ha).
  apply wp_bind. eapply wp_mono with
    (Q := fun r w' => silent w w' /\ exists x, snd r = set_idx ls0 x /\
            (fst r = true -> (exists ipath, ip = Some ipath) /\ idx_ok x /\ forall e, In e (ix_entries x) -> ~ validated e))
    (R := fun bd w' => silent w w' /\ bd <> BUB).
  - destruct ip as [ipath|].
    + apply wp_sideload.
      * apply (quiet0_files_ok w); [apply silent_quiet0, Q1|exact Hf].
      * intros x w' Q2. split; [eapply quiet_trans; eauto|]. exists x. split; [reflexivity|discriminate].
      * intros x ino' p n w' Q2 _ _ Hx _ _ _ _ Hfl. split; [eapply quiet_trans; eauto|]. exists x. split; [reflexivity|].
        intros _. split; [eauto|]. split; [exact Hx|]. intros e He. rewrite Forall_forall in Hfl. eapply from_index_flags; eauto.
      * intros bd w' Q2 Hb. split; [eapply quiet_trans; eauto|exact Hb].
    + apply wp_ret. split; [exact Q1|]. exists index_zero. split; [reflexivity|discriminate].
  - intros [loaded ls] w2 (Q2 & x & E1 & E2). cbn [fst snd] in E1, E2. subst ls. destruct loaded.
    + apply wp_ret. intros Hq. destruct (E2 eq_refl) as (I0 & I1 & I2). apply H2; auto.
      * split; [exact I1|]. intros e He V. destruct (I2 e He V).
      * left. split; [|exact I0]. unfold scans. now rewrite (silent_trace _ _ Q2).
    + apply wp_bind. pose proof (quiet0_files _ _ (silent_quiet0 _ _ Q2)) as F2.
      pose proof (scan_trace E (set_idx ls0 x) w2) as T. cbn [set_idx ls0 ls_ino] in T.
      assert (T' : forall w', w_trace w' = TScan ino :: w_trace w2 -> scans w' = S (scans w)).
      { intros w' Hw'. unfold scans. rewrite Hw'. cbn. now rewrite (silent_trace _ _ Q2). }
      eapply wp_mono; [apply wp_conj; [exact T|apply (wp_store_scan E (set_idx ls0 x) D w2) with
         (Q := fun r w3 => exists y, snd r = set_idx ls0 y /\ (fst r = true -> idx_ok y /\ scanned E cp D (w_files w ino) (In IoZero (w_io w)) (ix_entries y)))
         (R := fun bd w3 => bd <> BUB)]| |]; cbn [set_idx ls0 ls_ino ls_params]; auto.
      * rewrite F2. apply Hf.
      * intros y w3 Q3 I1 I2 _ _. exists y. split; [reflexivity|]. intros _. split; [exact I1|].
        cbn [ls_ino] in I2. rewrite F2 in I2. destruct I2 as (done & t & J1 & J2 & J3 & J4). exists done, t. repeat split; auto.
        destruct J3; auto. right. destruct Q2 as (_ & (pre & Hpre) & _). rewrite Hpre. apply in_or_app. auto.
      * intros y w3 Q3 _. exists y. split; [reflexivity|discriminate].
      * discriminate.
      * discriminate.
      * intros [ok ls] w3 (T3 & y & E3 & E4). cbn [fst snd] in E3, E4. subst ls. apply wp_ret. intros Hq. destruct ok.
        -- destruct (E4 eq_refl) as (I1 & I2). apply H2; auto. split; [exact I1|]. intros e He _. eapply scanned_good; eauto.
        -- apply H1; auto. rewrite (T' _ T3). lia.
      * intros bd w3 (T3 & Hb) Hq. apply H3; auto. rewrite (T' _ T3). lia.
  - intros bd w2 (Q2 & Hb) Hq. apply H3; auto. unfold scans. rewrite (silent_trace _ _ Q2). lia.
Qed.
End New.

(** ** Histories of requests (C23, C25) *)
Section History.
Variables (E : env) (b : bool) (D : N).
Hypothesis (Hq : qsort_ok E) (Hb : bsearch_ok E).

Lemma got_authentic f ls id out w r out' ls' tr : got E b D f ls id out w (r, out', ls') tr ->
  authentic E b (id, out) (r, out') /\ ls_ino ls' = ls_ino ls /\ ls_params ls' = ls_params ls /\
  (r <> None -> ls_ok E b f ls').
Proof.
  intros G. remember (r, out', ls') as res eqn:Er. destruct G; injection Er as <- <- <-; (split; [split; cbn [fst snd]|split; [reflexivity|split; [reflexivity|]]]).
  - eapply answered_length; eauto.
  - destruct r0 as [n|]; auto.
  - intros _. split; assumption.
  - assumption.
  - exact I.
  - congruence.
  - rewrite <- H0. eapply answered_length; eauto.
  - destruct r0 as [n|]; [|exact I]. intros Hn.
    destruct (answered_good E b _ _ _ _ _ _ _ (scanned_good _ b _ _ _ _ _ H1) H2 Hn) as (A1 & A2).
    split; [unfold blen in *; rewrite H0 in A1; exact A1|exact A2].
  - intros _. split; [assumption|]. cbn [set_idx ls_idx]. intros e He _. eapply scanned_good; eauto. now rewrite H3.
Qed.

Lemma got_scans f ls id out w r out' ls' tr : got E b D f ls id out w (r, out', ls') tr ->
  (length (filter is_scan tr) <= 1)%nat /\ (all_validated ls -> tr = []) /\
  (tr = [] -> forall e', In e' (ix_entries (ls_idx ls')) -> exists e, In e (ix_entries (ls_idx ls)) /\ (validated e -> validated e')) /\
  (r <> None -> tr <> [] -> all_validated ls').
Proof.
  intros G. remember (r, out', ls') as res eqn:Er.
  assert (St : forall es, stale E f es id out w -> ~ forall e, In e es -> validated e).
  { intros es (e & S1 & S2 & S3 & _) S. apply S3, S, S1. }
  destruct G; injection Er as <- <- <-; (split; [cbn; lia|split; [|split]]); auto; try congruence; try discriminate.
  - intros _ e' He'. destruct (H3 e' He') as (e & A1 & _ & _ & _ & A2). eauto.
  - intros A. destruct (St _ H A).
  - intros A. destruct (St _ H A).
  - intros _ _ e He. cbn [set_idx ls_idx] in He. eapply scanned_flags; [exact H1|]. now rewrite H3.
Qed.

Lemma ask_local_spec p : disc_of p D -> p_max p <= UINT32_MAX -> forall reqs ls w,
  ls_params ls = p -> blen (w_files w (ls_ino ls)) < OFF_LIMIT -> hash_mode b w -> ls_ok E b (w_files w (ls_ino ls)) ls ->
  wp (ask_local E ls reqs)
     (fun rs w' => Forall2 (authentic E b) (firstn (length rs) reqs) rs /\ (scans w' <= S (scans w))%nat /\ (all_validated ls -> scans w' = scans w))
     (fun bd w' => bd <> BUB /\ (scans w' <= S (scans w))%nat /\ (all_validated ls -> scans w' = scans w)) w.
Proof.
  intros Hd Hmax. induction reqs as [|[id out] reqs IH]; intros ls w Hp Hl Hm Hls; cbn [ask_local].
  { apply wp_ret. cbn. auto. }
  apply wp_bind. subst p. apply wp_local_get with (b := b) (D := D); auto.
  - intros [[r out'] ls'] tr w1 Q1 T1 G. pose proof (got_authentic _ _ _ _ _ _ _ _ _ G) as (A1 & A2 & A3 & A4).
    pose proof (got_scans _ _ _ _ _ _ _ _ _ G) as (S1 & S2 & S3 & S4).
    assert (Sc : scans w1 = (length (filter is_scan tr) + scans w)%nat) by (unfold scans; now rewrite T1, filter_app, app_length).
    destruct r as [n|].
    + apply wp_bind. pose proof (quiet0_files _ _ Q1) as F1.
      eapply wp_mono; [apply IH; auto| |].
      * rewrite A2, F1. exact Hl.
      * eapply quiet0_mode; eauto.
      * rewrite A2, F1. apply A4. discriminate.
      * intros rs w2 (B1 & B2 & B3). apply wp_ret. cbn [length firstn]. split; [constructor; auto|].
        destruct tr as [|t tr].
        -- cbn in Sc. rewrite Sc in *. split; [exact B2|]. intros V. apply B3. intros e' He'.
           destruct (S3 eq_refl e' He') as (e & C1 & C2). auto.
        -- rewrite B3 by (apply S4; discriminate). rewrite Sc. split; [lia|]. intros V. discriminate (S2 V).
      * intros bd w2 (B0 & B2 & B3). split; [exact B0|]. destruct tr as [|t tr].
        -- cbn in Sc. rewrite Sc in *. split; [exact B2|]. intros V. apply B3. intros e' He'.
           destruct (S3 eq_refl e' He') as (e & C1 & C2). auto.
        -- rewrite B3 by (apply S4; discriminate). rewrite Sc. split; [lia|]. intros V. discriminate (S2 V).
    + apply wp_ret. cbn [length firstn]. split; [constructor; [exact A1|constructor]|]. rewrite Sc. split; [lia|].
      intros V. rewrite (S2 V). reflexivity.
  - intros w1 Q1 (tr & T1 & Ht). assert (Sc : scans w1 = (length (filter is_scan tr) + scans w)%nat) by (unfold scans; now rewrite T1, filter_app, app_length).
    split; [discriminate|]. destruct Ht as [->|[-> (e & S1 & S2 & S3 & _)]]; cbn in Sc; (split; [lia|]); intros V; [lia|]. destruct (S3 (V e S1)).
  - intros w1 Q1 T1 _ _ (e & S1 & S2 & S3 & _). split; [discriminate|]. split; [unfold scans; rewrite T1; cbn; lia|].
    intros V. destruct (S3 (V e S1)).
Qed.

Lemma use_local_spec path ip p reqs w : disc_of p D -> p_max p <= UINT32_MAX -> files_ok w -> hash_mode b w ->
  wp (use_local E path ip p reqs)
     (fun r w' => match r with Some rs => Forall2 (authentic E b) (firstn (length rs) reqs) rs | None => True end /\ (scans w' <= S (scans w))%nat)
     (fun bd w' => bd <> BUB /\ (scans w' <= S (scans w))%nat) w.
Proof.
  intros Hd Hmax Hf Hm. unfold use_local. apply wp_bind. apply wp_local_new with (b := b) (D := D); auto.
  - intros w1 Q1 S1. apply wp_ret. auto.
  - intros ls w1 Q1 Eo Ep Hls Hs. apply wp_bind. pose proof (quiet0_files _ _ Q1) as F1.
    eapply wp_mono; [apply (ask_local_spec p Hd Hmax reqs ls w1 Ep)| |].
    + rewrite F1. apply Hf.
    + eapply quiet0_mode; eauto.
    + now rewrite F1.
    + intros rs w2 (B1 & B2 & B3). apply wp_ret. split; [exact B1|]. destruct Hs as [[Hs _]|[Hs Hsc]]; [lia|].
      rewrite B3; [lia|]. intros e. eapply scanned_flags; eauto.
    + intros bd w2 (B0 & B2 & B3). split; [exact B0|]. destruct Hs as [[Hs _]|[Hs Hsc]]; [lia|].
      rewrite B3; [lia|]. intros e. eapply scanned_flags; eauto.
Qed.
End History.
