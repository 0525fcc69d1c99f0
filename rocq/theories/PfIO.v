(** C43: the I/O helpers transfer everything or report failure. *)
From Verif Require Import Base Lib SpecBasic Utils PfUtils.
Ltac Zify.zify_post_hook ::= Z.div_mod_to_equations.
Local Open Scope N_scope.

Lemma error_free_good ev : error_free ev <-> forallb good_io ev = true.
Proof.
  induction ev as [|e ev IH]; cbn; [split; auto; constructor|].
  rewrite andb_true_iff. split.
  - intros H. inversion H; subst. split; [destruct e; cbn; tauto|]. now apply IH.
  - intros [H1 H2]. constructor; [destruct e; cbn in *; congruence || exact I|]. now apply IH.
Qed.

Lemma slice_file_has f off len : off + len <= blen f ->
  file_has f off (slice_N off len f) /\ blen (slice_N off len f) = len.
Proof.
  unfold file_has, slice_N, blen. intros H. split.
  - exists (firstn (N.to_nat off) f), (skipn (N.to_nat off + N.to_nat len) f). split.
    + rewrite skipn_add, firstn_skipn, firstn_skipn. reflexivity.
    + rewrite firstn_length. lia.
  - rewrite firstn_length, skipn_length. lia.
Qed.

Lemma file_has_unique f off d1 d2 : file_has f off d1 -> file_has f off d2 -> length d1 = length d2 -> d1 = d2.
Proof.
  unfold file_has, blen. intros (a1 & c1 & -> & H1) (a2 & c2 & H2 & H3) L.
  assert (Ha : length a1 = length a2) by lia.
  assert (E := f_equal (skipn (length a1)) H2). rewrite skipn_exact, Ha, skipn_exact in E.
  assert (E2 := f_equal (firstn (length d1)) E). rewrite firstn_exact, L, firstn_exact in E2. exact E2.
Qed.

(** The result of preadall/readall. *)
Definition read_result (f : bytes) (off len : N) (ok : bool) (buf : bytes) : Prop :=
  if ok then blen buf = len /\ (len <> 0 -> file_has f off buf)
  else blen buf < len /\ (buf <> [] -> file_has f off buf).

Lemma preadall_total ino len off w :
  match preadall ino len off w with
  | (Ok (ok, buf), w') => (exists ev, suffix ev (w_io w) /\ w' = set_io ev w) /\
                          read_result (w_files w ino) off len ok buf
  | (Halt, w') => w' = set_io [] w
  | (Abort, _) | (UB, _) => False
  end.
Proof.
  pose proof (wp_preadall ino len off
    (fun r w' => (exists ev, suffix ev (w_io w) /\ w' = set_io ev w) /\
                 read_result (w_files w ino) off len (fst r) (snd r))
    (fun b w' => b = BHalt /\ w' = set_io [] w) w) as H.
  lapply H; clear H; [intros H; lapply H; clear H; [intros H; lapply H; clear H; [intros H|]|]|].
  - unfold wp in H. destruct (preadall ino len off w) as [[[ok buf]| | |] w']; cbn [fst snd] in *;
      [exact H| | |exact (proj2 H)]; destruct H as [H _]; discriminate H.
  - auto.
  - intros ev' n Hs Hn Hb Hl; split; [eauto|]; unfold read_result; cbn [fst snd]; split; [unfold blen; lia|].
    intros Hz. apply slice_file_has. unfold blen. destruct n; [exfalso; apply Hz; reflexivity|lia].
  - intros ev' Hs Hr Ho Hl; split; [eauto|]; unfold read_result; cbn [fst snd]; split; [unfold blen; lia|].
    intros Hz; destruct Hr as [Hr|Hr]; [now apply slice_file_has|contradiction].
Qed.

Lemma read_loop_progress ev : forall avail len got r got' ev',
  error_free ev -> len <= blen avail -> (N.to_nat len <= transfers ev)%nat ->
  read_loop avail len ev got = (r, got', ev') -> r = IoDone.
Proof.
  induction ev as [|e ev IH]; intros avail len got r got' ev' EF L T H; cbn in H.
  - destruct (len =? 0) eqn:E; [congruence|]. cbn in T. lia.
  - destruct (len =? 0) eqn:E; [congruence|].
    inversion EF as [|? ? EF1 EF2]; subst. destruct e as [k| | |]; try contradiction.
    + set (n := N.min (N.pos (Pos.of_succ_nat k)) (N.min len (blen avail))) in *.
      assert (Hn : 0 < n /\ n <= len) by (unfold n; lia). destruct (n =? 0) eqn:En; [lia|].
      eapply IH; [| | |exact H]; auto; [unfold blen in *; rewrite skipn_length; lia|]. cbn in T. lia.
    + eapply IH; [| | |exact H]; auto.
Qed.

Lemma preadall_progress ino len off w :
  error_free (w_io w) -> off + len <= blen (w_files w ino) -> off < OFF_LIMIT ->
  (N.to_nat len <= transfers (w_io w))%nat ->
  exists buf w', preadall ino len off w = (Ok (true, buf), w').
Proof.
  intros EF L O T. unfold preadall. destruct (len =? 0) eqn:E0; [eauto|].
  replace (OFF_LIMIT <=? off) with false by lia.
  destruct (read_loop _ len (w_io w) []) as [[r got] ev'] eqn:ER.
  apply read_loop_progress in ER; auto.
  - subst. eauto.
  - rewrite N.min_l by (unfold blen in *; lia). unfold blen in *. rewrite skipn_length. lia.
Qed.

Lemma fw_written f off d : written f off d (fw f off d).
Proof.
  intros i. unfold byte_of. destruct d as [|x d].
  - cbn [fw length].
    replace ((off <=? i)%nat && (i <? off + 0)%nat)%bool with false by lia.
    replace ((i <? off)%nat && (0 <? 0)%nat)%bool with false by lia. now destruct (nth_error f i).
  - cbn [fw]. rewrite nth_error_file_write.
    destruct (i <? off)%nat eqn:E1.
    + replace (off <=? i)%nat with false by lia. cbn [andb].
      destruct (i <? length f)%nat eqn:E2.
      * assert (nth_error f i <> None) by (apply nth_error_Some; lia). now destruct (nth_error f i).
      * rewrite (nth_error_None_ge f i) by lia. replace (0 <? length (x :: d))%nat with true by (cbn; lia). reflexivity.
    + replace (off <=? i)%nat with true by lia. cbn [andb].
      destruct (i <? off + length (x :: d))%nat eqn:E2; [reflexivity|]. now destruct (nth_error f i).
Qed.

Lemma written_unique f off d f1 f2 : written f off d f1 -> written f off d f2 -> f1 = f2.
Proof. intros H1 H2. apply nth_error_ext. intros i. unfold written, byte_of in *. now rewrite H1, H2. Qed.

Lemma pwriteall_total E ino data off w :
  let w' := snd (pwriteall E ino data off w) in
  exists n, (n <= length data)%nat /\
    written (w_files w ino) (N.to_nat off) (firstn n data) (w_files w' ino) /\
    (forall j, j <> ino -> w_files w' j = w_files w j) /\
    (fst (pwriteall E ino data off w) = Ok true -> n = length data) /\
    (e_kind E ino = KBlk -> length (w_files w' ino) = length (w_files w ino)) /\
    fst (pwriteall E ino data off w) <> UB.
Proof.
  cbn zeta.
  pose proof (wp_pwriteall E ino data off
    (fun r w' => exists n, (n <= length data)%nat /\
      written (w_files w ino) (N.to_nat off) (firstn n data) (w_files w' ino) /\
      (forall j, j <> ino -> w_files w' j = w_files w j) /\ (r = true -> n = length data) /\
      (e_kind E ino = KBlk -> length (w_files w' ino) = length (w_files w ino)))
    (fun b w' => b <> BUB /\ exists n, (n <= length data)%nat /\
      written (w_files w ino) (N.to_nat off) (firstn n data) (w_files w' ino) /\
      (forall j, j <> ino -> w_files w' j = w_files w j) /\
      (e_kind E ino = KBlk -> length (w_files w' ino) = length (w_files w ino))) w) as H.
  assert (U : forall f d, upd_file f ino d ino = d) by (intros; unfold upd_file; now rewrite Nat.eqb_refl).
  assert (V : forall f d j, j <> ino -> upd_file f ino d j = f j)
    by (intros; unfold upd_file; now rewrite (proj2 (Nat.eqb_neq _ _))).
  lapply H; clear H; [intros H; lapply H; clear H; [intros H|]|].
  - unfold wp in H. destruct (pwriteall E ino data off w) as [[r| | |] w']; cbn [fst snd] in *.
    + destruct H as (n & H1 & H2 & H3 & H4 & H5). exists n. repeat split; auto; try congruence.
      intros Hr. injection Hr as ->. auto.
    + destruct H as (Hb & n & H1 & H2 & H3 & H4). exists n. repeat split; auto; congruence.
    + destruct H as (Hb & _). congruence.
    + destruct H as (Hb & n & H1 & H2 & H3 & H4). exists n. repeat split; auto; congruence.
  - intros b n ev' wr Hn _ _ Hk _ Hb. split; [assumption|]. exists n. cbn [w_files]. rewrite U.
    repeat split; auto. apply fw_written.
  - intros r n ev' wr Hn _ _ Hr Hk _. exists n. cbn [w_files]. rewrite U.
    repeat split; auto. apply fw_written.
Qed.

Lemma pwrite_loop_progress ev : forall k f off data wr r f' wr' ev',
  error_free ev -> off + blen data <= OFF_LIMIT -> k <> KOther ->
  (k = KBlk -> off + blen data <= blen f) -> (length data <= transfers ev)%nat ->
  pwrite_loop k f off data ev wr = (r, f', wr', ev') -> r = IoDone.
Proof.
  induction ev as [|e ev IH]; intros k f off data wr r f' wr' ev' EF L K1 K2 T H.
  - destruct data; cbn in H; [congruence|cbn in T; lia].
  - destruct data as [|x data]; [cbn in H; congruence|].
    set (D := x :: data) in *.
    assert (HD : (0 < length D)%nat) by (unfold D; cbn; lia).
    change (match e with
            | IoN m =>
              match write_room k f off (N.min (N.of_nat (S m)) (blen D)) with
              | None => (IoFailed, f, wr, ev)
              | Some n => pwrite_loop k (file_write f (N.to_nat off) (firstn (N.to_nat n) D)) (off + n)
                            (skipn (N.to_nat n) D) ev ((off, firstn (N.to_nat n) D) :: wr)
              end
            | IoIntr => pwrite_loop k f off D ev wr
            | IoErr => (IoFailed, f, wr, ev)
            | IoZero => (IoAssert, f, wr, ev)
            end = (r, f', wr', ev')) in H.
    clearbody D. inversion EF as [|? ? EF1 EF2]; subst. destruct e as [m| | |]; try contradiction.
    + destruct (write_room k f off (N.min (N.of_nat (S m)) (blen D))) as [n|] eqn:W; unfold write_room in W.
      2:{ exfalso. destruct (OFF_LIMIT <=? off) eqn:EL; [unfold blen in *; lia|].
          destruct k; [discriminate| |congruence].
          destruct (blen f <=? off) eqn:EB; [|discriminate]. specialize (K2 eq_refl). unfold blen in *. lia. }
      assert (Hn : (N.to_nat n <= length D)%nat /\ 0 < n).
      { destruct (OFF_LIMIT <=? off); [discriminate|]. unfold blen in *.
        destruct k; [|destruct (N.of_nat (length f) <=? off) eqn:EB; [discriminate|]|discriminate]; injection W as <-; lia. }
      cbn in T. eapply IH; [| | | | |exact H]; auto.
      * unfold blen in *. rewrite skipn_length. lia.
      * intros KB. specialize (K2 KB). unfold blen in *.
        rewrite skipn_length, length_file_write, firstn_length. lia.
      * rewrite skipn_length. lia.
    + eapply IH; [| | | | |exact H]; auto.
Qed.

Lemma pwriteall_progress E ino data off w :
  error_free (w_io w) -> off + blen data <= OFF_LIMIT -> e_kind E ino <> KOther ->
  (e_kind E ino = KBlk -> off + blen data <= blen (w_files w ino)) ->
  (length data <= transfers (w_io w))%nat ->
  exists w', pwriteall E ino data off w = (Ok true, w').
Proof.
  intros EF L K1 K2 T. unfold pwriteall.
  destruct (pwrite_loop _ _ off data (w_io w) []) as [[[r f'] wr] ev'] eqn:EP.
  apply pwrite_loop_progress in EP; auto. subst. eauto.
Qed.

Lemma write_loop_progress ev : forall out data r out' ev',
  error_free ev -> (length data <= transfers ev)%nat ->
  write_loop out data ev = (r, out', ev') -> r = IoDone.
Proof.
  induction ev as [|e ev IH]; intros out data r out' ev' EF T H.
  - destruct data; cbn in H; [congruence|cbn in T; lia].
  - destruct data as [|x data]; [cbn in H; congruence|].
    inversion EF as [|? ? EF1 EF2]; subst. destruct e as [m| | |]; try contradiction; cbn [write_loop] in H.
    + eapply IH; [| |exact H]; auto. cbn [length transfers] in *. rewrite skipn_length. cbn [length]. lia.
    + eapply IH; [| |exact H]; auto.
Qed.
