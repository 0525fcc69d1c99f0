(** Reading with an account of the schedule. *)
From Verif Require Import Base Lib Utils SpecBasic PfUtils PfBasic PfIO.
Ltac Zify.zify_post_hook ::= Z.div_mod_to_equations.
Local Open Scope nat_scope.

Lemma read_loop_transfers ev : forall avail len got r got' ev',
  read_loop avail len ev got = (r, got', ev') -> r <> IoFailed ->
  length got <= length got' /\ transfers ev <= transfers ev' + (length got' - length got).
Proof.
  induction ev as [|e ev IH]; intros avail len got r got' ev' H Hr; cbn in H.
  - destruct (len =? 0)%N; injection H as <- <- <-; cbn; lia.
  - destruct (len =? 0)%N. { injection H as <- <- <-. cbn. lia. }
    destruct e as [k| | |].
    + set (n := N.min (N.pos (Pos.of_succ_nat k)) (N.min len (blen avail))) in *.
      destruct (n =? 0)%N eqn:En. { injection H as <- <- <-. congruence. }
      apply IH in H; [|exact Hr]. rewrite app_length, firstn_length in H. cbn [transfers].
      assert (N.to_nat n <= length avail) by (unfold n, blen; lia). lia.
    + apply IH in H; auto.
    + injection H as <- <- <-. congruence.
    + injection H as <- <- <-. congruence.
Qed.

(** Like [wp_preadall], with reasons for failures and the transfers used. *)
Lemma wp_pread ino len off (Q : bool * bytes -> world -> Prop) (R : bad -> world -> Prop) w :
  let f := w_files w ino in
  (forall ev', suffix ev' (w_io w) -> (off + len <= blen f)%N \/ len = 0%N ->
     ((0 < len)%N -> (off < OFF_LIMIT)%N) -> blen (slice_N off len f) = len ->
     transfers (w_io w) <= transfers ev' + N.to_nat len ->
     Q (true, slice_N off len f) (set_io ev' w)) ->
  (forall ev' n, suffix ev' (w_io w) -> (N.of_nat n < len)%N -> length (slice_N off (N.of_nat n) f) = n ->
     ~ error_free (w_io w) \/ (blen f < off + len)%N \/ (OFF_LIMIT <= off)%N ->
     Q (false, slice_N off (N.of_nat n) f) (set_io ev' w)) ->
  (transfers (w_io w) < N.to_nat len -> R BHalt (set_io [] w)) ->
  wp (preadall ino len off) Q R w.
Proof.
  intros f H1 H2 H3. unfold wp, preadall. fold f.
  destruct (len =? 0)%N eqn:E0.
  { apply N.eqb_eq in E0; subst len.
    specialize (H1 (w_io w) (suffix_refl _) (or_intror eq_refl)). rewrite set_io_id in H1.
    apply H1; [lia|reflexivity|lia]. }
  destruct (OFF_LIMIT <=? off)%N eqn:EL.
  { destruct (w_io w) as [|e ev'] eqn:Ew.
    - rewrite <- (set_io_id w), Ew. apply H3. cbn. lia.
    - apply (H2 ev' 0); [apply suffix_cons, suffix_refl|lia|reflexivity|right; right; lia]. }
  destruct (read_loop _ len (w_io w) []) as [[r got] ev'] eqn:ER.
  pose proof (read_loop_suffix _ _ _ _ _ _ _ ER) as HS.
  pose proof (read_loop_transfers _ _ _ _ _ _ _ ER) as HT.
  pose proof (read_loop_good (w_io w)) as HG.
  pose proof (read_loop_halt (w_io w)) as HH.
  pose proof (read_loop_spec _ _ _ _ _ _ _ ER) as HR.
  assert (HS' : skipn (N.to_nat (N.min off (blen f))) f = skipn (N.to_nat off) f).
  { destruct (N.le_gt_cases off (blen f)).
    - now rewrite N.min_l by lia.
    - rewrite N.min_r by lia. unfold blen in *. rewrite !skipn_all2; [reflexivity|lia|lia]. }
  rewrite HS' in *. cbn [app] in HR. destruct r.
  - destruct HR as [L ->]. unfold blen in L. rewrite skipn_length in L.
    specialize (HT ltac:(discriminate)). cbn [length] in HT. rewrite firstn_length, skipn_length in HT.
    apply H1; auto; try lia.
    + left. unfold blen. lia.
    + unfold slice_N, blen. rewrite firstn_length, skipn_length. lia.
  - destruct HR as [n (L & L2 & ->)]. rewrite skipn_length in L2.
    replace (firstn n (skipn (N.to_nat off) f)) with (slice_N off (N.of_nat n) f)
      by (unfold slice_N; now rewrite Nat2N.id).
    apply H2; auto.
    + unfold slice_N. rewrite Nat2N.id, firstn_length, skipn_length. lia.
    + destruct (N.le_gt_cases (off + len) (blen f)) as [Le|Gt]; [|auto].
      left. intros EF. apply error_free_good in EF.
      assert (LL : (len <= blen (skipn (N.to_nat off) f))%N) by (unfold blen in *; rewrite skipn_length; lia).
      destruct (HG _ _ _ _ _ _ EF LL ER) as [[Q1|Q1] _]; discriminate.
  - destruct HR.
  - pose proof (HH _ _ _ _ _ ER) as ->. apply H3.
    specialize (HT ltac:(discriminate)). destruct HR as [n (L & L2 & ->)]. cbn [length transfers] in HT.
    rewrite firstn_length in HT. lia.
Qed.

Lemma wp_fd_size E ino (Q : option N -> world -> Prop) R w :
  (e_kind E ino <> KOther -> Q (Some (blen (w_files w ino))) w) -> (e_kind E ino = KOther -> Q None w) ->
  wp (fd_size E ino) Q R w.
Proof. unfold wp, fd_size. destruct (e_kind E ino); intros H1 H2; auto; apply H1; discriminate. Qed.

Lemma error_free_suffix a b : suffix a b -> error_free b -> error_free a.
Proof. intros H. apply suffix_Forall, H. Qed.
Lemma bytes_ok_slice off len f : bytes_ok f -> bytes_ok (slice off len f).
Proof.
  unfold bytes_ok, slice. intros H. rewrite Forall_forall in *. intros x Hx. apply H.
  rewrite <- (firstn_skipn off f). apply in_or_app. right.
  rewrite <- (firstn_skipn len (skipn off f)). apply in_or_app. now left.
Qed.
Lemma slice_N_slice off len f : slice_N off len f = slice (N.to_nat off) (N.to_nat len) f.
Proof. reflexivity. Qed.
Lemma slice_slice a b c d (f : bytes) : c + d <= b -> slice c d (slice a b f) = slice (a + c) d f.
Proof.
  intros H. unfold slice. rewrite skipn_firstn_comm, firstn_firstn, skipn_add. f_equal. lia.
Qed.
Lemma skipn_slice a b c (f : bytes) : skipn c (slice a b f) = slice (a + c) (b - c) f.
Proof. unfold slice. now rewrite skipn_firstn_comm, skipn_add. Qed.
Lemma firstn_slice a b c (f : bytes) : c <= b -> firstn c (slice a b f) = slice a c f.
Proof. intros. unfold slice. rewrite firstn_firstn. f_equal. lia. Qed.
Lemma length_slice a b (f : bytes) : a + b <= length f -> length (slice a b f) = b.
Proof. intros. unfold slice. rewrite firstn_length, skipn_length. lia. Qed.
