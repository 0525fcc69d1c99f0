(** A run does not depend on how the operating system cuts its transfers (C87). *)
From Verif Require Import Base Lib Utils Sha Encrypt Discr Chunker Caibx Index StoreLocal Target StoreHttp Chain Ui MainProg
  SpecBasic SpecCaibx SpecEnv SpecRun SpecLive SpecSched PfUtils PfBasic PfIO PfCaibx PfReadonly PfLive PfLive3 PfSetup PfSchedScan.
Local Open Scope nat_scope.

(** ** The loops of utils.c *)
Lemma error_free_tl e ev : error_free (e :: ev) -> error_free ev. Proof. intros H. apply (Forall_inv_tail H). Qed.
Lemma read_canon : forall ev avail len got r got' ev', error_free ev -> read_loop avail len ev got = (r, got', ev') ->
  error_free ev' /\ (r = IoHalt \/ r = (if len <=? blen avail then IoDone else IoFailed)%N /\ got' = got ++ firstn (N.to_nat len) avail).
Proof.
  induction ev as [|e ev IH]; intros avail len got r got' ev' He H.
  - cbn in H. destruct (N.eqb_spec len 0) as [->|]; injection H as <- <- <-; split; auto. right. cbn. rewrite app_nil_r, (proj2 (N.leb_le 0 (blen avail))) by apply N.le_0_l. split; reflexivity.
  - cbn [read_loop] in H. destruct (N.eqb_spec len 0) as [->|Hl]. { injection H as <- <- <-. split; [exact He|]. right. cbn. rewrite app_nil_r, (proj2 (N.leb_le 0 (blen avail))) by apply N.le_0_l. split; reflexivity. }
    assert (He' := error_free_tl _ _ He). destruct e as [k| | |]; [|apply (IH _ _ _ _ _ _ He' H)|destruct (Forall_inv He)|destruct (Forall_inv He)].
    set (n := N.min (N.of_nat (S k)) (N.min len (blen avail))) in *. destruct (N.eqb_spec n 0) as [En|En].
    + injection H as <- <- <-. split; [exact He'|]. right. assert (blen avail = 0)%N by (unfold n in En; lia). destruct avail as [|x avail]; [|unfold blen in *; cbn in *; lia].
      rewrite firstn_nil, app_nil_r. split; [|reflexivity]. destruct (N.leb_spec len (blen [])); [cbn in *; lia|reflexivity].
    + apply IH in H; [|exact He']. destruct H as (X & H). split; [exact X|]. destruct H as [H|(H1 & H2)]; [now left|right].
      assert (Hn : (n <= len)%N /\ N.to_nat n <= length avail) by (unfold n, blen; lia). subst r got'. split.
      * unfold blen. rewrite skipn_length. destruct (N.leb_spec (len - n) (N.of_nat (length avail - N.to_nat n))), (N.leb_spec len (N.of_nat (length avail))); auto; lia.
      * rewrite <- app_assoc, <- firstn_skipn_add. do 2 f_equal. lia.
Qed.
Definition room_for (k : fkind) (f : bytes) (off : N) (len : nat) : nat :=
  match k with KReg => len | KBlk => Nat.min len (length f - N.to_nat off) | KOther => 0 end.
Lemma pwrite_canon : forall ev k f off data wr r f' wr' ev', error_free ev -> (off + blen data <= OFF_LIMIT)%N -> pwrite_loop k f off data ev wr = (r, f', wr', ev') ->
  error_free ev' /\ (r = IoHalt \/ r = (if room_for k f off (length data) =? length data then IoDone else IoFailed) /\ f' = fw f (N.to_nat off) (firstn (room_for k f off (length data)) data)).
Proof.
  induction ev as [|e ev IH]; intros k f off data wr r f' wr' ev' He Ho H.
  - destruct data as [|x data]; cbn in H; injection H as <- <- <- <-; split; auto. right. rewrite firstn_nil. split; [|reflexivity]. now destruct k.
  - destruct data as [|x data]. { cbn in H. injection H as <- <- <- <-. split; [exact He|]. right. rewrite firstn_nil. split; [|reflexivity]. now destruct k. }
    set (D := x :: data) in *. assert (HD : 0 < length D) by (cbn; lia). assert (He' := error_free_tl _ _ He).
    assert (U : match e with
            | IoN m =>
              match write_room k f off (N.min (N.of_nat (S m)) (blen D)) with
              | None => (IoFailed, f, wr, ev)
              | Some n => pwrite_loop k (file_write f (N.to_nat off) (firstn (N.to_nat n) D)) (off + n)
                            (skipn (N.to_nat n) D) ev ((off, firstn (N.to_nat n) D) :: wr)
              end
            | IoIntr => pwrite_loop k f off D ev wr
            | IoErr => (IoFailed, f, wr, ev)
            | IoZero => (IoAssert, f, wr, ev)
            end = (r, f', wr', ev')) by exact H. clear H. clearbody D.
    destruct e as [m| | |]; [|apply (IH _ _ _ _ _ _ _ _ _ He' Ho U)|destruct (Forall_inv He)|destruct (Forall_inv He)].
    unfold write_room in U. destruct (N.leb_spec OFF_LIMIT off) as [L|L]; [unfold blen in Ho; lia|].
    set (want := N.min (N.of_nat (S m)) (blen D)) in *. assert (Hw : (0 < want)%N /\ N.to_nat want <= length D) by (unfold want, blen; lia). clearbody want.
    assert (Z : forall n, (0 < n)%N -> N.to_nat n <= length D -> (k = KBlk -> N.to_nat off + N.to_nat n <= length f) -> k <> KOther ->
      pwrite_loop k (file_write f (N.to_nat off) (firstn (N.to_nat n) D)) (off + n) (skipn (N.to_nat n) D) ev ((off, firstn (N.to_nat n) D) :: wr) = (r, f', wr', ev') ->
      error_free ev' /\ (r = IoHalt \/ r = (if room_for k f off (length D) =? length D then IoDone else IoFailed) /\ f' = fw f (N.to_nat off) (firstn (room_for k f off (length D)) D))).
    { intros n Hn Hn2 Hb Hk H. apply IH in H; [|exact He'|unfold blen in *; rewrite skipn_length; lia]. destruct H as (X & H). split; [exact X|]. destruct H as [H|(H1 & H2)]; [now left|right].
      assert (Hlen : length (firstn (N.to_nat n) D) = N.to_nat n) by (rewrite firstn_length; lia).
      assert (Hfw : file_write f (N.to_nat off) (firstn (N.to_nat n) D) = fw f (N.to_nat off) (firstn (N.to_nat n) D)).
      { destruct (firstn (N.to_nat n) D) eqn:EF; [|reflexivity]. cbn [length] in Hlen. lia. }
      assert (R : room_for k f off (length D) = N.to_nat n + room_for k (file_write f (N.to_nat off) (firstn (N.to_nat n) D)) (off + n) (length (skipn (N.to_nat n) D))).
      { rewrite skipn_length. unfold room_for. destruct k; [lia| |congruence]. rewrite length_file_write, Hlen. specialize (Hb eq_refl). lia. }
      rewrite R. set (ro := room_for k (file_write _ _ _) _ _) in *. subst r f'. split.
      - rewrite skipn_length. destruct (Nat.eqb_spec ro (length D - N.to_nat n)), (Nat.eqb_spec (N.to_nat n + ro) (length D)); auto; lia.
      - rewrite firstn_skipn_add, <- fw_app, Hlen, Hfw. f_equal. lia. }
    destruct k.
    + apply (Z want); try lia; [discriminate|discriminate|exact U].
    + destruct (N.leb_spec (blen f) off) as [L2|L2].
      * injection U as <- <- <- <-. split; [exact He'|]. right. unfold blen in L2. unfold room_for. replace (length f - N.to_nat off) with 0 by lia. rewrite Nat.min_0_r. split; [|reflexivity].
        destruct (Nat.eqb_spec 0 (length D)); [lia|reflexivity].
      * unfold blen in *. apply (Z (N.min want (N.of_nat (length f) - off))%N); try lia; [discriminate|exact U].
    + injection U as <- <- <- <-. split; [exact He'|]. right. cbn [room_for firstn fw]. split; [|reflexivity]. destruct (Nat.eqb_spec 0 (length D)); [lia|reflexivity].
Qed.

Section Sched.
Variables (j : nat) (g : bytes).

(** ** Two worlds that differ in their schedules and in the transfers made *)
Definition eqw (w1 w2 : world) : Prop :=
  w_files w1 = w_files w2 /\ w_files w1 j = g /\ w_alloc w1 = w_alloc w2 /\ w_kcapi w1 = w_kcapi w2 /\ w_kev w1 = w_kev w2 /\ w_nperf w1 = w_nperf w2 /\
  calls (w_trace w1) = calls (w_trace w2) /\ error_free (w_io w1) /\ error_free (w_io w2).
Definition agr {A} (m1 m2 : M A) : Prop := forall w1 w2, eqw w1 w2 ->
  match m1 w1, m2 w2 with
  | (Halt, _), _ | _, (Halt, _) => True
  | (Ok a, x), (Ok b, y) => a = b /\ eqw x y
  | (Abort, x), (Abort, y) | (UB, x), (UB, y) => eqw x y
  | _, _ => False
  end.

Lemma gives_mono A (K L : A -> Prop) (m : M A) : gives K m -> (forall a, K a -> L a) -> gives L m.
Proof. intros H HL w. specialize (H w). destruct (m w) as [[a| | |] x]; auto. Qed.
Lemma agr_bindK A B (K : A -> Prop) (m1 m2 : M A) (k1 k2 : A -> M B) : agr m1 m2 -> gives K m1 -> (forall a, K a -> agr (k1 a) (k2 a)) -> agr (bind m1 k1) (bind m2 k2).
Proof.
  intros Hm HK Hk w1 w2 Hw. specialize (Hm w1 w2 Hw). specialize (HK w1). unfold bind.
  destruct (m1 w1) as [[a| | |] x], (m2 w2) as [[b| | |] y]; auto; try contradiction.
  - destruct Hm as (<- & Hm). apply Hk; assumption.
  - destruct (k1 a x) as [[?| | |] ?]; exact Logic.I.
Qed.
Lemma agr_bind A B (m1 m2 : M A) (k1 k2 : A -> M B) : agr m1 m2 -> (forall a, agr (k1 a) (k2 a)) -> agr (bind m1 k1) (bind m2 k2).
Proof. intros Hm Hk. apply (agr_bindK _ _ (fun _ => True)); auto. apply gives_any. Qed.
Lemma agr_ret A (a : A) : agr (ret a) (ret a). Proof. intros w1 w2 H. split; auto. Qed.
Lemma agr_abort A : agr (@abort A) abort. Proof. intros w1 w2 H. exact H. Qed.
Lemma agr_ub A : agr (@ub A) ub. Proof. intros w1 w2 H. exact H. Qed.
Lemma agr_halt A (m : M A) : agr halt m. Proof. intros w1 w2 H. exact Logic.I. Qed.
Lemma agr_lift A (o : outcome A) : agr (lift o) (lift o). Proof. intros w1 w2 H. unfold lift. destruct o; auto. Qed.
Lemma agr_assert b : agr (u_assert b) (u_assert b). Proof. intros w1 w2 H. unfold u_assert. destruct b; [split|]; auto. Qed.
Lemma agr_trace t : (match t with TWrite _ _ _ => False | _ => True end) -> agr (trace t) (trace t).
Proof.
  intros Ht w1 w2 (H1 & H2 & H3 & H4 & H5 & H6 & H7 & H8 & H9). cbn. split; [reflexivity|]. unfold add_trace, eqw. cbn. repeat (split; [assumption|]).
  split; [|auto]. destruct t; try contradiction; exact (f_equal (cons _) H7).
Qed.
Lemma agr_alloc : agr alloc alloc.
Proof.
  intros w1 w2 H. assert (X := H). destruct X as (H1 & H2 & H3 & H4 & H5 & H6 & H7 & H8 & H9). unfold alloc. rewrite <- H3. destruct (w_alloc w1) as [|b r]; split; auto.
  repeat (split; [assumption || reflexivity|]). assumption.
Qed.
Lemma eqw_io w1 w2 e1 e2 : eqw w1 w2 -> error_free e1 -> error_free e2 -> eqw (set_io e1 w1) (set_io e2 w2).
Proof. intros (H1 & H2 & H3 & H4 & H5 & H6 & H7 & H8 & H9) X Y. repeat (split; [assumption|]). assumption. Qed.
Lemma agr_preadall ino len off : agr (preadall ino len off) (preadall ino len off).
Proof.
  intros w1 w2 H. assert (X := H). destruct X as (H1 & _ & _ & _ & _ & _ & _ & H8 & H9). unfold preadall. rewrite <- H1.
  destruct (len =? 0)%N; [split; auto|]. destruct (OFF_LIMIT <=? off)%N.
  - destruct (w_io w1) as [|e1 r1]; [exact Logic.I|]. destruct (w_io w2) as [|e2 r2]; [exact Logic.I|]. split; [reflexivity|]. apply eqw_io; eauto using error_free_tl.
  - set (av := skipn _ _). destruct (read_loop av len (w_io w1) []) as [[ra ga] ea] eqn:Ea. destruct (read_loop av len (w_io w2) []) as [[rb gb] eb] eqn:Eb.
    apply read_canon in Ea; [|exact H8]. apply read_canon in Eb; [|exact H9]. destruct Ea as (Xa & [->|(-> & ->)]); [exact Logic.I|]. destruct Eb as (Xb & [->|(-> & ->)]).
    { destruct (len <=? blen av)%N; exact Logic.I. }
    destruct (len <=? blen av)%N; (split; [reflexivity|apply eqw_io; auto]).
Qed.
Lemma agr_readall ino pos len : agr (readall ino pos len) (readall ino pos len). Proof. apply agr_preadall. Qed.
Lemma agr_fd_size E ino : agr (fd_size E ino) (fd_size E ino).
Proof. intros w1 w2 H. unfold fd_size. rewrite (proj1 H). destruct (e_kind E ino); split; auto. Qed.
Lemma agr_sha E d : agr (sha_once E d) (sha_once E d).
Proof.
  intros w1 w2 H. assert (X := H). destruct X as (H1 & H2 & H3 & H4 & H5 & H6 & H7 & H8 & H9). unfold sha_once. rewrite <- H4, <- H5.
  assert (K : forall b kv, eqw (set_kcapi b kv w1) (set_kcapi b kv w2)) by (intros; repeat (split; [assumption || reflexivity|]); assumption).
  destruct (w_kcapi w1); cbn [negb]; [|split; auto]. destruct (kc_send d (w_kev w1)) as [[[rest|]|u] kv]; [split; auto| |exact Logic.I].
  destruct (kc_recv kv) as [[[]|u] kv']; [split; auto|split; auto|exact Logic.I].
Qed.
Lemma agr_chunk_id E d : agr (chunk_calculate_id E d) (chunk_calculate_id E d). Proof. apply agr_sha. Qed.
Lemma agr_kcapi E : agr (sha_kcapi_init E) (sha_kcapi_init E).
Proof.
  intros w1 w2 H. assert (X := H). destruct X as (H1 & H2 & H3 & H4 & H5 & H6 & H7 & H8 & H9). unfold sha_kcapi_init. destruct (e_kcapi_ok E); split; auto.
  repeat (split; [assumption || reflexivity|]). assumption.
Qed.
Lemma calls_writes ino wr tr : calls (trace_writes ino wr tr) = calls tr.
Proof. unfold trace_writes, calls. rewrite filter_app. replace (filter _ (map _ wr)) with (@nil tev); [reflexivity|]. induction wr; cbn; auto. Qed.
Lemma agr_pwriteall E ino data off : ino <> j -> (off + blen data <= OFF_LIMIT)%N -> agr (pwriteall E ino data off) (pwriteall E ino data off).
Proof.
  intros Hj Ho w1 w2 H. assert (X := H). destruct X as (H1 & H2 & H3 & H4 & H5 & H6 & H7 & H8 & H9). unfold pwriteall. rewrite <- H1.
  destruct (pwrite_loop _ (w_files w1 ino) off data (w_io w1) []) as [[[ra fa] wra] ea] eqn:Ea. destruct (pwrite_loop _ (w_files w1 ino) off data (w_io w2) []) as [[[rb fb] wrb] eb] eqn:Eb.
  apply pwrite_canon in Ea; [|exact H8|exact Ho]. apply pwrite_canon in Eb; [|exact H9|exact Ho]. destruct Ea as (Xa & [->|(-> & ->)]); [exact Logic.I|]. destruct Eb as (Xb & [->|(-> & ->)]).
  { destruct (_ =? _); exact Logic.I. }
  destruct (_ =? _); (split; [reflexivity|]); (split; [reflexivity|]; split; [cbn; unfold upd_file; destruct (Nat.eqb_spec j ino); [congruence|exact H2]|]; cbn; rewrite !calls_writes; auto 10).
Qed.
Lemma agr_perform E u r : (forall c s f q, agr (curl_deliver E c s f q) (curl_deliver E c s f q)) -> agr (curl_easy_perform E u r) (curl_easy_perform E u r).
Proof.
  intros Hd w1 w2 H. assert (X := H). destruct X as (H1 & H2 & H3 & H4 & H5 & H6 & H7 & H8 & H9). unfold curl_easy_perform. rewrite <- H6. set (p := e_server E u (w_nperf w1)).
  apply (agr_bind _ _ _ _ _ _ (Hd (p_code p) (p_segs p) (p_end p) r)). { intros [c q]. apply agr_ret. }
  unfold add_trace, set_nperf, eqw. cbn [w_files w_alloc w_kcapi w_kev w_nperf w_trace w_io]. repeat (split; [assumption || congruence|]). split; [exact (f_equal (cons (TPerform u)) H7)|auto].
Qed.

Ltac agr_step :=
  lazymatch goal with
  | |- agr (bind _ _) (bind _ _) => apply agr_bind; [|intros]
  | |- agr (ret _) _ => apply agr_ret
  | |- agr abort _ => apply agr_abort
  | |- agr ub _ => apply agr_ub
  | |- agr halt _ => apply agr_halt
  | |- agr (lift _) _ => apply agr_lift
  | |- agr (u_assert _) _ => apply agr_assert
  | |- agr alloc _ => apply agr_alloc
  | |- agr (preadall _ _ _) _ => apply agr_preadall
  | |- agr (readall _ _ _) _ => apply agr_readall
  | |- agr (fd_size _ _) _ => apply agr_fd_size
  | |- agr (sha_once _ _) _ => apply agr_sha
  | |- agr (chunk_calculate_id _ _) _ => apply agr_chunk_id
  | |- agr (trace _) _ => apply agr_trace; exact Logic.I
  | |- agr (let (_, _) := ?x in _) _ => destruct x
  | |- agr (match ?x with _ => _ end) _ => destruct x
  | |- agr (let x := ?v in @?b x) _ => cbv zeta
  end.
Ltac agrs := repeat agr_step.

Variable E : env.
Lemma agr_load_header ino : agr (caibx_load_header E ino) (caibx_load_header E ino).
Proof. unfold caibx_load_header, load_index_header, validate_table_header, validate_table_footer, load_section_header. agrs. Qed.
Lemma agr_iterate A (cb : N -> N -> bytes -> A -> M (bool * A)) ino p n : (forall o l i a, agr (cb o l i a) (cb o l i a)) ->
  forall k i last a, agr (iterate_loop cb ino p n k i last a) (iterate_loop cb ino p n k i last a).
Proof. intros H. induction k; intros; cbn [iterate_loop]; agrs; auto. Qed.
Lemma agr_scan_buf A (cb : N -> N -> bytes -> A -> M (bool * A)) : (forall o l i a, agr (cb o l i a) (cb o l i a)) ->
  forall fuel buf st, agr (scan_buf cb E fuel buf st) (scan_buf cb E fuel buf st).
Proof. intros H. induction fuel; intros; cbn [scan_buf]; agrs; auto. Qed.

(** ** Scanning *)
(** [m] neither uses the schedule nor changes a file. *)
Definition neutral {A} (m : M A) : Prop := forall w ev, m (set_io ev w) = (fst (m w), set_io ev (snd (m w))) /\ w_files (snd (m w)) = w_files w.
Lemma neutral_ret A (a : A) : neutral (ret a). Proof. split; reflexivity. Qed.
Lemma neutral_abort A : neutral (@abort A). Proof. split; reflexivity. Qed.
Lemma neutral_ub A : neutral (@ub A). Proof. split; reflexivity. Qed.
Lemma neutral_lift A (o : outcome A) : neutral (lift o). Proof. split; reflexivity. Qed.
Lemma neutral_halt A : neutral (@halt A). Proof. split; reflexivity. Qed.
Lemma neutral_assert b : neutral (u_assert b). Proof. destruct b; split; reflexivity. Qed.
Lemma neutral_alloc : neutral alloc. Proof. intros w ev. unfold alloc. cbn. destruct (w_alloc w); split; reflexivity. Qed.
Lemma neutral_bind A B (m : M A) (k : A -> M B) : neutral m -> (forall a, neutral (k a)) -> neutral (bind m k).
Proof.
  intros Hm Hk w ev. unfold bind. destruct (Hm w ev) as (H1 & H2). rewrite H1. destruct (m w) as [[a| | |] x]; cbn [fst snd] in *; auto.
  destruct (Hk a x ev) as (H3 & H4). split; [exact H3|congruence].
Qed.
Lemma neutral_insert fl o l i x : neutral (store_insert_index fl o l i x).
Proof.
  unfold store_insert_index, index_insert. apply neutral_bind.
  - apply neutral_bind; [apply neutral_assert|intros _]. destruct (ix_ptr x); [apply neutral_abort| |apply neutral_ub]. apply neutral_bind.
    + destruct (_ <=? _)%N; [apply neutral_alloc|apply neutral_ret].
    + intros a. destruct (negb a); [apply neutral_ret|]. destruct (_ <? _)%N; [apply neutral_ub|apply neutral_ret].
  - intros [[pos|] y]; apply neutral_ret.
Qed.
Lemma neutral_scan_buf A (cb : N -> N -> bytes -> A -> M (bool * A)) : (forall o l i a, neutral (cb o l i a)) ->
  forall fuel buf st, neutral (scan_buf cb E fuel buf st).
Proof.
  intros H. induction fuel as [|fuel IH]; intros buf st; cbn [scan_buf]; [apply neutral_halt|]. destruct buf; [apply neutral_ret|]. apply neutral_bind; [apply neutral_lift|]. intros [[k|] c]; [|apply neutral_ret].
  apply neutral_bind; [apply H|]. intros [ok a]. destruct (negb ok); [apply neutral_ret|apply IH].
Qed.
(** Reading a file piece by piece is one pass over all of it. *)
Lemma scan_reads_one A (cb : N -> N -> bytes -> A -> M (bool * A)) ino : (forall o l i a, neutral (cb o l i a)) ->
  forall fuel pos st w, error_free (w_io w) -> okc (sc_c st) -> (pos <= blen (w_files w ino))%N ->
  let d := skipn (N.to_nat pos) (w_files w ino) in
  match scan_reads cb E fuel ino pos st w with
  | (Halt, _) => True
  | (o, w') => exists ev, error_free ev /\ o = fst (scan_buf cb E (S (length d)) d st w) /\ w' = set_io ev (snd (scan_buf cb E (S (length d)) d st w))
  end.
Proof.
  intros Hcb. induction fuel as [|fuel IH]; intros pos st w He Hc Hp d; cbn [scan_reads]; [exact Logic.I|].
  unfold bind at 1. unfold read1. destruct (w_io w) as [|e r] eqn:Ew; [exact Logic.I|]. assert (Hr := error_free_tl _ _ He).
  destruct e as [k| | |]; [| |destruct (Forall_inv He)|destruct (Forall_inv He)].
  2:{ assert (X := IH pos st (set_io r w) Hr Hc Hp). cbv zeta in X. cbn [w_files set_io] in X. fold d in X. destruct (neutral_scan_buf _ cb Hcb (S (length d)) d st w r) as (N1 & _). rewrite N1 in X. exact X. }
  rewrite (N.min_l pos) by exact Hp. fold d. set (n := N.to_nat (N.min (N.of_nat (S k)) BUFSIZ)). assert (Hn : 0 < n) by (unfold n, BUFSIZ; lia). clearbody n.
  destruct (firstn n d) as [|x l] eqn:Ed.
  - destruct d as [|y d'] eqn:Ed2; [|destruct n; [lia|discriminate]]. cbn. exists r. auto.
  - set (d1 := x :: l) in *. set (d2 := skipn n d). assert (Edd : d = d1 ++ d2) by (unfold d2; rewrite <- Ed; symmetry; apply firstn_skipn).
    rewrite Edd. rewrite (scan_buf_app cb E (length d1)) by auto. unfold bind.
    destruct (neutral_scan_buf _ cb Hcb (S (length d1)) d1 st w r) as (N1 & N2). rewrite N1.
    destruct (scan_buf cb E (S (length d1)) d1 st w) as [o w1] eqn:Es. cbn [fst snd] in *. destruct o as [[ok st']| | |]; [|exists r; auto|exists r; auto|exact Logic.I].
    destruct ok; cbn [negb]; [|exists r; auto]. apply scan_buf_okc in Es; [|exact Hc].
    assert (Hl : length d1 <= length d) by (rewrite Edd, app_length; lia). assert (Hld : length d = length (w_files w ino) - N.to_nat pos) by (unfold d; apply skipn_length).
    specialize (IH (pos + blen d1)%N st' (set_io r w1) Hr Es). cbn [w_files set_io] in IH. rewrite N2 in IH. specialize (IH ltac:(unfold blen in *; lia)).
    assert (Es2 : skipn (N.to_nat (pos + blen d1)) (w_files w ino) = d2).
    { replace (N.to_nat (pos + blen d1)) with (N.to_nat pos + length d1) by (unfold blen; lia). rewrite skipn_add. fold d. rewrite Edd, skipn_app, skipn_all, Nat.sub_diag. reflexivity. }
    rewrite Es2 in IH. destruct (scan_reads cb E fuel ino _ st' _) as [o2 w2]. destruct (neutral_scan_buf _ cb Hcb (S (length d2)) d2 st' w1 r) as (N3 & _). rewrite N3 in IH. cbn [fst snd] in IH.
    destruct o2; auto; destruct IH as (ev & A1 & A2 & A3); exists ev; auto.
Qed.
Lemma agr_scan_fd A (cb : N -> N -> bytes -> A -> M (bool * A)) ino p a : (forall o l i a, agr (cb o l i a) (cb o l i a)) -> (forall o l i a, neutral (cb o l i a)) ->
  agr (chunker_scan_fd cb E ino p a) (chunker_scan_fd cb E ino p a).
Proof.
  intros Ha Hn. unfold chunker_scan_fd. apply (agr_bindK _ _ okc); [apply agr_lift| |].
  { intros w. unfold lift. destruct (chunker_init p) eqn:Ei; auto. now apply okc_init in Ei. }
  intros c Hc. apply agr_bind.
  2:{ intros [ok st]. destruct (negb ok); [apply agr_ret|]. destruct (_ =? _)%N; [apply agr_ret|apply Ha]. }
  intros w1 w2 H. assert (X := H). destruct X as (H1 & _ & _ & _ & _ & _ & _ & H8 & H9).
  assert (S1 := scan_reads_one A cb ino Hn (S (length (w_io w1))) 0%N (mkScan c 0%N 0%N a) w1 H8 Hc ltac:(lia)). assert (S2 := scan_reads_one A cb ino Hn (S (length (w_io w2))) 0%N (mkScan c 0%N 0%N a) w2 H9 Hc ltac:(lia)).
  cbv zeta in S1, S2. rewrite <- H1 in S2. set (d := skipn _ _) in *. assert (B := agr_scan_buf A cb Ha (S (length d)) d (mkScan c 0%N 0%N a) w1 w2 H).
  destruct (scan_reads cb E _ ino 0%N _ w1) as [o1 x1]. destruct (scan_reads cb E _ ino 0%N _ w2) as [o2 x2].
  destruct (scan_buf cb E _ d _ w1) as [b1 y1]. destruct (scan_buf cb E _ d _ w2) as [b2 y2]. cbn [fst snd] in *.
  destruct o1; auto; destruct S1 as (e1 & P1 & P2 & P3); subst b1 x1; (destruct o2; auto; destruct S2 as (e2 & P4 & P5 & P6); subst b2 x2; try contradiction);
    try (destruct B as (-> & B); split; [reflexivity|]); apply eqw_io; assumption.
Qed.

Lemma agr_index_init x n : agr (index_init x n) (index_init x n). Proof. unfold index_init. agrs. Qed.
Lemma agr_index_cleanup x : agr (index_cleanup x) (index_cleanup x). Proof. unfold index_cleanup. agrs. Qed.
Lemma agr_index_insert x o l i : agr (index_insert x o l i) (index_insert x o l i). Proof. unfold index_insert. agrs. Qed.
Lemma agr_index_query x i : agr (index_query E x i) (index_query E x i). Proof. unfold index_query. agrs. Qed.
Lemma agr_index_get x i : agr (index_get x i) (index_get x i). Proof. unfold index_get. agrs. Qed.
Lemma agr_insert_index fl o l i x : agr (store_insert_index fl o l i x) (store_insert_index fl o l i x).
Proof. unfold store_insert_index. agrs. apply agr_index_insert. Qed.
Lemma agr_sideload ls p : agr (store_sideload_index E ls p) (store_sideload_index E ls p).
Proof.
  unfold store_sideload_index. agrs; try apply agr_load_header; try apply agr_index_init; try apply agr_index_cleanup.
  apply agr_iterate. intros; apply agr_insert_index.
Qed.
Lemma agr_store_scan ls : agr (store_scan E ls) (store_scan E ls).
Proof. unfold store_scan. agrs; try apply agr_index_init. apply agr_scan_fd; intros; [apply agr_insert_index|apply neutral_insert]. Qed.
Lemma agr_local_loop : forall fuel ls id out, agr (local_get_loop E fuel ls id out) (local_get_loop E fuel ls id out).
Proof.
  induction fuel; intros; cbn [local_get_loop]; agrs; auto; try apply agr_index_query; try apply agr_index_get; try apply agr_index_cleanup; try apply agr_store_scan.
Qed.
(** More fuel changes nothing. *)
Lemma bind_more A B (m : M A) (k1 k2 : A -> M B) w : (forall a x, fst (k1 a x) <> Halt -> k2 a x = k1 a x) -> fst (bind m k1 w) <> Halt -> bind m k2 w = bind m k1 w.
Proof. intros H. unfold bind. destruct (m w) as [[a| | |] x]; auto. Qed.
Lemma local_loop_more : forall f1 f2 ls id out w, f1 <= f2 -> fst (local_get_loop E f1 ls id out w) <> Halt -> local_get_loop E f2 ls id out w = local_get_loop E f1 ls id out w.
Proof.
  induction f1 as [|f1 IH]; intros f2 ls id out w Hf; cbn [local_get_loop]; [intros X; now destruct X|]. destruct f2 as [|f2]; [lia|]. cbn [local_get_loop].
  apply bind_more. intros [r x] w1. destruct r as [pos|]; [|reflexivity]. cbv zeta. apply bind_more. intros e w2. destruct (_ <? _)%N; [reflexivity|]. apply bind_more. intros [ok data] w3.
  destruct (negb ok); [reflexivity|]. destruct (negb _); [reflexivity|]. apply bind_more. intros actual w4. destruct (beq _ _); [reflexivity|]. apply bind_more. intros y w5. apply bind_more. intros [ok2 ls2] w6.
  destruct (negb ok2); [reflexivity|]. apply IH. lia.
Qed.
Lemma agr_local_get ls id out : agr (store_local_get_chunk E ls id out) (store_local_get_chunk E ls id out).
Proof.
  intros w1 w2 H. unfold store_local_get_chunk. set (f1 := S (length (w_io w1))). set (f2 := S (length (w_io w2))). assert (G := agr_local_loop (f1 + f2) ls id out w1 w2 H).
  assert (X1 := local_loop_more f1 (f1 + f2) ls id out w1 ltac:(lia)). assert (X2 := local_loop_more f2 (f1 + f2) ls id out w2 ltac:(lia)).
  destruct (local_get_loop E f1 ls id out w1) as [o1 y1]. destruct (local_get_loop E f2 ls id out w2) as [o2 y2]. cbn [fst] in *.
  destruct o1; auto; rewrite X1 in G by discriminate; destruct o2; auto; rewrite X2 in G by discriminate; exact G.
Qed.
Lemma agr_local_new path ip cp : agr (store_local_new E path ip cp) (store_local_new E path ip cp).
Proof. unfold store_local_new. agrs; try apply agr_sideload; try apply agr_store_scan. Qed.
Lemma agr_local_free ls : agr (store_local_free ls) (store_local_free ls).
Proof. unfold store_local_free. agrs. apply agr_index_cleanup. Qed.
Lemma agr_add_chunk t l o i : agr (target_add_chunk E t l o i) (target_add_chunk E t l o i).
Proof. unfold target_add_chunk. agrs; try apply agr_index_query; apply agr_index_insert. Qed.
Lemma agr_check_chunk t tmp l o i : agr (target_check_chunk E t tmp l o i) (target_check_chunk E t tmp l o i).
Proof. unfold target_check_chunk. agrs. apply agr_add_chunk. Qed.
Lemma agr_target_get t id out : agr (target_get_chunk E t id out) (target_get_chunk E t id out).
Proof. unfold target_get_chunk. agrs; try apply agr_index_query; apply agr_index_get. Qed.
Lemma agr_target_write t data l o i : t_ino t <> j -> (o + l <= OFF_LIMIT)%N -> agr (target_write E t data l o i) (target_write E t data l o i).
Proof.
  intros H1 H2. unfold target_write. agrs; [|apply agr_add_chunk]. apply agr_pwriteall; [exact H1|]. unfold blen. rewrite firstn_length. lia.
Qed.
Lemma agr_target_new p : agr (target_new E p) (target_new E p). Proof. unfold target_new. agrs. Qed.
Lemma agr_as_store t n : agr (target_as_store t n) (target_as_store t n). Proof. unfold target_as_store. agrs; apply agr_index_init. Qed.

Lemma agr_absorb r d : agr (decode_buffer_absorb r d) (decode_buffer_absorb r d). Proof. unfold decode_buffer_absorb. agrs. Qed.
Lemma agr_handle_data r d : agr (handle_data E r d) (handle_data E r d). Proof. unfold handle_data. agrs. Qed.
Lemma agr_data_cb c p r : agr (store_http_data_cb E c p r) (store_http_data_cb E c p r).
Proof. unfold store_http_data_cb. agrs; try apply agr_absorb; try apply agr_handle_data. Qed.
Lemma agr_deliver c segs fin : forall r, agr (curl_deliver E c segs fin r) (curl_deliver E c segs fin r).
Proof. induction segs; intros; cbn [curl_deliver]; agrs; auto. apply agr_data_cb. Qed.
Lemma agr_retried u : forall n wt r, agr (retried_curl_easy_perform E u n wt r) (retried_curl_easy_perform E u n wt r).
Proof. induction n; intros; cbn [retried_curl_easy_perform]; agrs; auto; apply agr_perform; intros; apply agr_deliver. Qed.
Lemma agr_http_get hs id out : agr (store_http_get_chunk E hs id out) (store_http_get_chunk E hs id out).
Proof. unfold store_http_get_chunk, set_url. agrs. apply agr_retried. Qed.
Lemma agr_slurp p : agr (slurp_file E p) (slurp_file E p). Proof. unfold slurp_file. agrs. Qed.
Lemma agr_keyspec s : agr (encrypt_parse_keyspec E s) (encrypt_parse_keyspec E s).
Proof. unfold encrypt_parse_keyspec, encrypt_parse_keyspec_buf. agrs; try apply agr_slurp. Qed.
Lemma agr_handle_params : forall fuel a k, agr (store_handle_params E fuel a k) (store_handle_params E fuel a k).
Proof. induction fuel; intros; cbn [store_handle_params]; agrs; auto. apply agr_keyspec. Qed.
Lemma agr_http_new u : agr (store_http_new E u) (store_http_new E u).
Proof. unfold store_http_new. agrs. apply agr_handle_params. Qed.
Lemma agr_store_get s t id out : agr (store_get_chunk E s t id out) (store_get_chunk E s t id out).
Proof. unfold store_get_chunk. destruct s; agrs; [apply agr_local_get|apply agr_http_get|apply agr_target_get]. Qed.
Lemma agr_chain_free : forall l, agr (store_chain_free l) (store_chain_free l).
Proof. induction l; cbn [store_chain_free]; agrs; auto. apply agr_local_free. Qed.
Lemma agr_chain_new n : agr (store_chain_new n) (store_chain_new n). Proof. unfold store_chain_new. agrs. Qed.
Lemma agr_chain_append n l s : agr (store_chain_append n l s) (store_chain_append n l s). Proof. unfold store_chain_append. agrs. Qed.
Lemma agr_append_store tp cp n b a : agr (append_store_from_arg E tp cp n b a) (append_store_from_arg E tp cp n b a).
Proof.
  unfold append_store_from_arg. agrs; try apply agr_as_store; try apply agr_http_new; try apply agr_local_new; try apply agr_chain_append.
Qed.
Lemma agr_append_stores tp cp n : forall l b, agr (append_stores E tp cp n b l) (append_stores E tp cp n b l).
Proof. induction l; intros; cbn [append_stores]; agrs; auto. apply agr_append_store. Qed.
Lemma agr_opts tp cp n : forall os b, agr (casync_opts E tp cp n b os) (casync_opts E tp cp n b os).
Proof. induction os as [|[] os IH]; intros; cbn [casync_opts]; agrs; auto. apply agr_append_store. Qed.
Lemma agr_chain_loop : forall l i t id out, agr (chain_loop E i l t id out) (chain_loop E i l t id out).
Proof. induction l as [|ss l IH]; intros; cbn [chain_loop]; agrs; auto. apply agr_store_get. Qed.
Lemma agr_csn argv : agr (csn E argv) (csn E argv).
Proof.
  unfold csn. agrs; try apply agr_kcapi; try apply agr_load_header; try apply agr_target_new; try apply agr_chain_new; apply agr_append_stores.
Qed.
Lemma agr_casync argv : agr (casync E argv) (casync E argv).
Proof. unfold casync. agrs; try apply agr_load_header; try apply agr_target_new; try apply agr_chain_new; apply agr_opts. Qed.

(** ** The run *)
Lemma agr_progress n st : agr (entry_progress E n st) (entry_progress E n st).
Proof. unfold entry_progress. agrs. Qed.
Definition off_target (st : mstate) : Prop := t_ino (m_target st) <> j.
Lemma agr_fetch_write n o l i st : off_target st -> (o + l <= OFF_LIMIT)%N -> agr (entry_fetch_write E n o l i st) (entry_fetch_write E n o l i st).
Proof.
  intros Ht Ho. unfold entry_fetch_write. apply (agr_bindK _ _ (fun r => off_target (snd r))).
  - agrs. apply agr_chain_loop.
  - destruct (match m_last_id st with Some l0 => beq l0 i | None => false end); [now apply gives_ret|]. destruct (m_store st) as [chain|]; [|apply gives_ub].
    eapply gives_bind; [apply gives_chain|]. intros [[[r buf] c] t] Hr. cbn [snd] in Hr. cbv zeta. destruct (match r with Some _ => _ | None => false end); apply gives_ret; unfold off_target, m_set; cbn; congruence.
  - intros [ok st1] H1. cbn [snd] in H1. destruct (negb ok); [apply agr_ret|]. apply agr_bind; [apply agr_target_write; assumption|]. intros [ok2 t]. cbv zeta. destruct (negb ok2); [apply agr_ret|apply agr_progress].
Qed.
Lemma agr_entry_cb n o l i st : off_target st -> (o + l <= OFF_LIMIT)%N -> agr (entry_cb E n o l i st) (entry_cb E n o l i st).
Proof.
  intros Ht Ho. unfold entry_cb. destruct (m_resuming st); [|now apply agr_fetch_write]. destruct (_ <? _)%N; [apply agr_ret|].
  apply (agr_bindK _ _ (fun r => t_ino (snd r) = t_ino (m_target st))); [apply agr_check_chunk|apply gives_check|]. intros [[r buf] t] Hr. cbn [snd] in Hr.
  assert (X : agr (entry_fetch_write E n o l i (m_set st (m_store st) t (m_last_id st) false buf)) (entry_fetch_write E n o l i (m_set st (m_store st) t (m_last_id st) false buf))).
  { apply agr_fetch_write; [|exact Ho]. unfold off_target, m_set. cbn. congruence. }
  destruct r as [[]|]; [apply agr_progress|exact X|exact X].
Qed.
Lemma gives_entry_cb n o l i st : gives (fun r => t_ino (m_target (snd r)) = t_ino (m_target st)) (entry_cb E n o l i st).
Proof.
  assert (P : forall n st, gives (fun r => t_ino (m_target (snd r)) = t_ino (m_target st)) (entry_progress E n st)).
  { clear. intros n st. unfold entry_progress. destruct (e_interactive E); [|now apply gives_ret]. cbv zeta. eapply gives_bind; [apply gives_any|]. intros _ _. now apply gives_ret. }
  assert (F : forall st, gives (fun r => t_ino (m_target (snd r)) = t_ino (m_target st)) (entry_fetch_write E n o l i st)).
  { clear - P. intros st. unfold entry_fetch_write. eapply (gives_bind _ _ (fun r => t_ino (m_target (snd r)) = t_ino (m_target st))).
    - destruct (match m_last_id st with Some l0 => beq l0 i | None => false end); [now apply gives_ret|]. destruct (m_store st) as [chain|]; [|apply gives_ub].
      eapply gives_bind; [apply gives_chain|]. intros [[[r buf] c] t] Hr. cbn [snd] in Hr. cbv zeta. destruct (match r with Some _ => _ | None => false end); apply gives_ret; exact Hr.
    - intros [ok st1] H1. cbn [snd] in H1. destruct (negb ok); [now apply gives_ret|]. eapply gives_bind; [apply gives_write|]. intros [ok2 t] Ht. cbn [snd] in Ht. cbv zeta.
      destruct (negb ok2); [apply gives_ret; cbn; congruence|]. eapply gives_mono; [apply P|]. intros r Hr. rewrite Hr. cbn. congruence. }
  unfold entry_cb. destruct (m_resuming st); [|apply F]. destruct (_ <? _)%N; [now apply gives_ret|]. eapply gives_bind; [apply gives_check|]. intros [[r buf] t] Hr. cbn [snd] in Hr.
  assert (X : gives (fun r => t_ino (m_target (snd r)) = t_ino (m_target st)) (entry_fetch_write E n o l i (m_set st (m_store st) t (m_last_id st) false buf))).
  { eapply gives_mono; [apply F|]. intros q Hq. rewrite Hq. exact Hr. }
  destruct r as [[]|]; [|exact X|exact X]. eapply gives_mono; [apply P|]. intros q Hq. rewrite Hq. exact Hr.
Qed.
Hypothesis Hg : modest g.
Lemma read_entry i w : w_files w j = g -> match readall j (CA_HEADER_LEN + CA_TABLE_HEADER_LEN + i * CA_TABLE_ENTRY_LEN)%N CA_TABLE_ENTRY_LEN w with
  | (Ok (true, buf), _) => (unp64le buf + M32 <= OFF_LIMIT)%N | _ => True end.
Proof.
  intros Hw. unfold readall, preadall. change (CA_TABLE_ENTRY_LEN =? 0)%N with false. cbv iota. rewrite Hw.
  destruct (OFF_LIMIT <=? _)%N; [destruct (w_io w); exact Logic.I|]. set (off := (CA_HEADER_LEN + CA_TABLE_HEADER_LEN + i * CA_TABLE_ENTRY_LEN)%N).
  destruct (read_loop _ _ _ _) as [[r got] ev] eqn:Er. apply read_loop_spec in Er. destruct r; try exact Logic.I. destruct Er as (H1 & ->). cbn [app].
  unfold blen in H1. rewrite skipn_length in H1. unfold CA_TABLE_ENTRY_LEN in H1.
  assert (Ho : N.to_nat off + 40 <= length g) by (unfold blen in H1; lia).
  rewrite N.min_l by (unfold blen; lia). change (firstn (N.to_nat CA_TABLE_ENTRY_LEN) (skipn (N.to_nat off) g)) with (slice (N.to_nat off) (N.to_nat 40) g).
  destruct Hg as (Hb & Hm). assert (Eo : N.to_nat off = 64 + 40 * N.to_nat i) by (unfold off, CA_HEADER_LEN, CA_TABLE_HEADER_LEN, CA_TABLE_ENTRY_LEN; lia).
  rewrite unp64_field0; [|exact Hb|change (N.to_nat 40) with 40; lia|change (N.to_nat 40) with 40; lia]. rewrite Eo. apply (Hm (N.to_nat i)). lia.
Qed.
Lemma agr_bind_entry B i (k1 k2 : bool * bytes -> M B) : (forall ok buf, (ok = true -> unp64le buf + M32 <= OFF_LIMIT)%N -> agr (k1 (ok, buf)) (k2 (ok, buf))) ->
  agr (bind (readall j (CA_HEADER_LEN + CA_TABLE_HEADER_LEN + i * CA_TABLE_ENTRY_LEN)%N CA_TABLE_ENTRY_LEN) k1)
      (bind (readall j (CA_HEADER_LEN + CA_TABLE_HEADER_LEN + i * CA_TABLE_ENTRY_LEN)%N CA_TABLE_ENTRY_LEN) k2).
Proof.
  intros Hk w1 w2 H. assert (X := agr_readall j (CA_HEADER_LEN + CA_TABLE_HEADER_LEN + i * CA_TABLE_ENTRY_LEN)%N CA_TABLE_ENTRY_LEN w1 w2 H).
  assert (Y := read_entry i w1 (proj1 (proj2 H))). unfold bind. set (r1 := readall j _ _ w1) in *. set (r2 := readall j _ _ w2) in *. destruct r1 as [[[ok buf]| | |] x], r2 as [[[ok2 buf2]| | |] y]; auto; try contradiction.
  - destruct X as (X & X2). injection X as <- <-. apply Hk; [|exact X2]. intros ->. exact Y.
  - destruct (k1 (ok, buf) x) as [[?| | |] ?]; exact Logic.I.
Qed.
Lemma agr_iterate_main m p n : forall k i last st, off_target st -> (last + M32 <= OFF_LIMIT)%N -> agr (iterate_loop (entry_cb E m) j p n k i last st) (iterate_loop (entry_cb E m) j p n k i last st).
Proof.
  induction k as [|k IH]; intros i last st Ht Hl; cbn [iterate_loop]; [apply agr_ret|]. apply agr_bind_entry. intros ok buf Hb. destruct ok; cbn [negb]; [|apply agr_ret]. cbv zeta. specialize (Hb eq_refl).
  destruct (negb _ && _ && _)%bool; [now apply IH|].
  apply (agr_bindK _ _ (fun r => t_ino (m_target (snd r)) = t_ino (m_target st))); [|apply gives_entry_cb|].
  - apply agr_entry_cb; [exact Ht|]. assert (((unp64le buf + SIZE_MOD - last) mod SIZE_MOD) mod M32 < M32)%N by (apply N.mod_lt; unfold M32; lia). lia.
  - intros [ok st'] Hr. cbn [snd] in Hr. destruct (negb ok); [apply agr_ret|]. apply IH; [|exact Hb]. unfold off_target. congruence.
Qed.
Lemma agr_run su : su_index su = j -> t_ino (su_target su) <> j -> agr (run_sync E su) (run_sync E su).
Proof.
  intros Hi Ht. unfold run_sync, caibx_iterate_entries. apply agr_bind.
  - rewrite Hi. apply agr_iterate_main; [exact Ht|]. unfold M32, OFF_LIMIT. lia.
  - intros [ok st]. destruct (negb ok); [apply agr_ret|]. destruct (m_store st); [|apply agr_ub]. apply agr_bind; [apply agr_chain_free|]. intros _. apply agr_ret.
Qed.
End Sched.

(** ** The program *)
Lemma gives_csn_setup E argv : gives (fun r => match r with InitOk su => e_open E (nth 1 argv []) = Some (su_index su) /\ e_open_rw E (nth 2 argv []) = Some (t_ino (su_target su)) | _ => True end) (csn E argv).
Proof.
  unfold csn. destruct argv as [|a0 [|ip [|tp [|a3 rest]]]]; try now apply gives_ret. eapply gives_bind; [apply gives_any|]. intros k _. destruct (negb k); [now apply gives_ret|].
  cbn [nth]. destruct (e_open E ip) as [ino|]; [|now apply gives_ret]. eapply gives_bind; [apply gives_any|]. intros [[cp n]|] _; [|now apply gives_ret].
  eapply gives_bind; [apply gives_target_new|]. intros [t|] Ht; [|now apply gives_ret]. eapply gives_bind; [apply gives_any|]. intros [space|] _; [|now apply gives_ret].
  eapply gives_bind; [apply gives_append_stores|]. intros [b|] Hb; apply gives_ret; [|exact Logic.I]. cbn. cbn in Hb. rewrite Hb. auto.
Qed.
Lemma gives_casync_setup E argv : gives (fun r => match r with InitOk su => e_open E (nth (length argv - 2) argv []) = Some (su_index su) /\ e_open_rw E (nth (length argv - 1) argv []) = Some (t_ino (su_target su)) | _ => True end) (casync E argv).
Proof.
  unfold casync. destruct (Nat.ltb _ 3); [now apply gives_ret|]. cbv zeta. destruct (e_open E _) as [ino|]; [|now apply gives_ret]. eapply gives_bind; [apply gives_any|]. intros [[cp n]|] _; [|now apply gives_ret].
  eapply gives_bind; [apply gives_target_new|]. intros [t|] Ht; [|now apply gives_ret]. eapply gives_bind; [apply gives_any|]. intros [space|] _; [|now apply gives_ret].
  destruct (getopt_all _) as [os ns]. eapply gives_bind; [apply gives_opts|]. intros [b|b| |] Hb; cbn in Hb; try (now apply gives_ret).
  - destruct (_ || _)%bool; apply gives_ret; [exact Logic.I|]. cbn. rewrite Hb. auto.
  - apply gives_ret. cbn. rewrite Hb. auto.
Qed.
Lemma gives_init_setup E argv : gives (fun r => match r with InitOk su => e_open E (cmd_index argv) = Some (su_index su) /\ e_open_rw E (cmd_target argv) = Some (t_ino (su_target su)) | _ => True end) (init E argv).
Proof.
  unfold init, cmd_index, cmd_target, is_csn. destruct (beq _ (bs "csn")); [apply gives_csn_setup|]. destruct (beq _ (bs "casync")); [apply gives_casync_setup|now apply gives_ret].
Qed.
Lemma agr_main E argv j g : modest g -> e_open E (cmd_index argv) = Some j -> index_apart E argv -> agr j g (main E argv) (main E argv).
Proof.
  intros Hg Hi Ha. rewrite main_init. eapply agr_bindK; [|apply gives_init_setup|].
  - unfold init. destruct (beq _ (bs "csn")); [apply agr_csn|]. destruct (beq _ (bs "casync")); [apply agr_casync|apply agr_ret].
  - intros [su| |c] H; [|apply agr_ret|apply agr_ret]. destruct H as (H1 & H2). apply agr_run; [exact Hg|congruence|]. intros Ht. apply (Ha _ H2). rewrite H1, Ht in *. congruence.
Qed.
(** Without an index nothing is opened at all. *)
Lemma no_index E argv w : e_open E (cmd_index argv) = None -> exists o w', main E argv w = (o, w') /\ forall ev, main E argv (set_io ev w) = (o, set_io ev w').
Proof.
  unfold main, cmd_index, is_csn. intros H. destruct (beq _ (bs "csn")).
  - unfold csn. destruct argv as [|a0 [|ip [|tp [|a3 rest]]]]; try (eexists _, _; split; [reflexivity|intros; reflexivity]). cbn [nth] in H.
    unfold bind. destruct (e_getenv E _); [|cbn; rewrite H; eexists _, _; split; [reflexivity|intros; reflexivity]].
    unfold sha_kcapi_init. destruct (e_kcapi_ok E); cbn; rewrite ?H; eexists _, _; (split; [reflexivity|intros; reflexivity]).
  - destruct (beq _ (bs "casync")); [|eexists _, _; split; [reflexivity|intros; reflexivity]]. unfold casync. destruct (Nat.ltb _ 3); [eexists _, _; split; [reflexivity|intros; reflexivity]|].
    cbv zeta. rewrite H. eexists _, _; split; [reflexivity|intros; reflexivity].
Qed.
Theorem schedule_independent E argv w ev1 ev2 : index_apart E argv -> modest_run E argv w -> error_free ev1 -> error_free ev2 ->
  fst (main E argv (set_io ev1 w)) <> Halt -> fst (main E argv (set_io ev2 w)) <> Halt ->
  fst (main E argv (set_io ev1 w)) = fst (main E argv (set_io ev2 w)) /\ same_effects (snd (main E argv (set_io ev1 w))) (snd (main E argv (set_io ev2 w))).
Proof.
  intros Ha Hm H1 H2. destruct (e_open E (cmd_index argv)) as [j|] eqn:Ei.
  - assert (X := agr_main E argv j (w_files w j) (Hm _ Ei) Ei Ha (set_io ev1 w) (set_io ev2 w)).
    assert (Hw : eqw j (w_files w j) (set_io ev1 w) (set_io ev2 w)) by (repeat (split; [reflexivity|]); auto). specialize (X Hw).
    assert (S : forall x y, eqw j (w_files w j) x y -> same_effects x y) by (intros x y (A1 & A2 & A3 & A4 & A5 & A6 & A7 & _); split; [now rewrite A1|]; auto 10).
    destruct (main E argv (set_io ev1 w)) as [[a| | |] x], (main E argv (set_io ev2 w)) as [[b| | |] y]; cbn [fst snd]; intros N1 N2; try contradiction; try congruence; auto.
    destruct X as (-> & X). auto.
  - intros _ _. destruct (no_index E argv w Ei) as (o & w' & _ & X). rewrite !X. cbn. split; [reflexivity|]. repeat (split; [reflexivity|]). reflexivity.
Qed.

Lemma settled_transfers ev : transfers ev <= settled ev.
Proof. induction ev as [|[k| | |] ev IH]; cbn; lia. Qed.
Lemma transfers_repeat n : transfers (repeat (IoN 0) n) = n.
Proof. induction n; cbn; auto. Qed.
(** What a run does is determined without its schedule. *)
Theorem schedule_unique E argv w : env_ok E -> kernel_unused E w -> index_apart E argv -> modest_run E argv w ->
  exists B o w', o <> Halt /\ forall ev, error_free ev -> B <= transfers ev -> fst (main E argv (set_io ev w)) = o /\ same_effects (snd (main E argv (set_io ev w))) w'.
Proof.
  intros HE (K1 & K2) Ha Hm. destruct (terminates E argv (w_files w) false HE ltac:(auto)) as (B & HB).
  assert (L : forall ev, B <= transfers ev -> fst (main E argv (set_io ev w)) <> Halt).
  { intros ev Hl Hh. destruct (HB (set_io ev w) ltac:(reflexivity) ltac:(auto) Hh) as [(_ & X)|(X & _)]; [|discriminate]. cbn [w_io set_io] in X. pose proof (settled_transfers ev). lia. }
  set (r := main E argv (set_io (repeat (IoN 0) B) w)). exists B, (fst r), (snd r). split; [apply L; rewrite transfers_repeat; lia|].
  intros ev He Hl. apply schedule_independent; auto.
  - apply Forall_forall. intros e X. apply repeat_spec in X. now subst e.
  - apply L. rewrite transfers_repeat. lia.
Qed.
