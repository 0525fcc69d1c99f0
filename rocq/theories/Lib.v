(** Lemmas about lists, numbers and the monad, and the predicate transformer used in proofs. *)
From Coq Require Export Lia ZifyBool ZifyNat ZifyN.
From Verif Require Import Base.

(** ** Weakest preconditions *)
Inductive bad : Type := BAbort | BUB | BHalt.

(** [wp m Q R w]: started in [w], [m] returns with a result satisfying [Q], or ends in one of
    the other ways in a world satisfying [R]. *)
Definition wp {A} (m : M A) (Q : A -> world -> Prop) (R : bad -> world -> Prop) (w : world) : Prop :=
  match m w with
  | (Ok a, w') => Q a w'
  | (Abort, w') => R BAbort w'
  | (UB, w') => R BUB w'
  | (Halt, w') => R BHalt w'
  end.

Lemma wp_bind A B (m : M A) (k : A -> M B) Q R w :
  wp m (fun a w' => wp (k a) Q R w') R w -> wp (bind m k) Q R w.
Proof. unfold wp, bind. destruct (m w) as [[a| | |] w']; auto. Qed.

Lemma wp_ret A (a : A) (Q : A -> world -> Prop) R w : Q a w -> wp (ret a) Q R w.
Proof. exact (fun h => h). Qed.
Lemma wp_abort A Q (R : bad -> world -> Prop) w : R BAbort w -> wp (@abort A) Q R w.
Proof. exact (fun h => h). Qed.
Lemma wp_ub A Q (R : bad -> world -> Prop) w : R BUB w -> wp (@ub A) Q R w.
Proof. exact (fun h => h). Qed.
Lemma wp_halt A Q (R : bad -> world -> Prop) w : R BHalt w -> wp (@halt A) Q R w.
Proof. exact (fun h => h). Qed.
Lemma wp_lift A (o : outcome A) (Q : A -> world -> Prop) (R : bad -> world -> Prop) w :
  (match o with Ok a => Q a w | Abort => R BAbort w | UB => R BUB w | Halt => R BHalt w end) ->
  wp (lift o) Q R w.
Proof. unfold wp, lift. destruct o; auto. Qed.
Lemma wp_assert b (Q : unit -> world -> Prop) (R : bad -> world -> Prop) w :
  (b = true -> Q tt w) -> (b = false -> R BAbort w) -> wp (u_assert b) Q R w.
Proof. unfold wp, u_assert, ret, abort. destruct b; auto. Qed.
Lemma wp_trace t (Q : unit -> world -> Prop) R w : Q tt (add_trace t w) -> wp (trace t) Q R w.
Proof. exact (fun h => h). Qed.

Lemma wp_mono A (m : M A) (Q Q' : A -> world -> Prop) (R R' : bad -> world -> Prop) w :
  wp m Q R w -> (forall a w', Q a w' -> Q' a w') -> (forall b w', R b w' -> R' b w') -> wp m Q' R' w.
Proof. unfold wp. destruct (m w) as [[a| | |] w']; auto. Qed.

Lemma wp_conj A (m : M A) Q1 R1 Q2 R2 w :
  wp m Q1 R1 w -> wp m Q2 R2 w ->
  wp m (fun a w' => Q1 a w' /\ Q2 a w') (fun b w' => R1 b w' /\ R2 b w') w.
Proof. unfold wp. destruct (m w) as [[a| | |] w']; auto. Qed.

Lemma wp_ok A (m : M A) (Q : A -> world -> Prop) R w a w' : wp m Q R w -> m w = (Ok a, w') -> Q a w'.
Proof. unfold wp. intros H E. rewrite E in H. exact H. Qed.

(** The world a computation ends in, whatever its outcome. *)
Definition final {A} (m : M A) (w : world) : world := snd (m w).
Lemma wp_final A (m : M A) (P : world -> Prop) w :
  wp m (fun _ w' => P w') (fun _ w' => P w') w -> P (final m w).
Proof. unfold wp, final. destruct (m w) as [[a| | |] w']; auto. Qed.

Lemma bind_ok A B (m : M A) (k : A -> M B) w b w2 :
  bind m k w = (Ok b, w2) -> exists a w1, m w = (Ok a, w1) /\ k a w1 = (Ok b, w2).
Proof.
  unfold bind. destruct (m w) as [[a| | |] w1]; intros H; try discriminate H. eauto.
Qed.

(** ** Worlds *)
Lemma set_io_id w : set_io (w_io w) w = w. Proof. destruct w; reflexivity. Qed.

(** [wp] step for allocation *)
Lemma wp_alloc (Q : bool -> world -> Prop) (R : bad -> world -> Prop) w :
  (forall b al, Q b (set_alloc al w)) -> wp alloc Q R w.
Proof.
  unfold wp, alloc. intros H. destruct (w_alloc w) as [|b r] eqn:E; [|apply H].
  specialize (H true (w_alloc w)). destruct w; exact H.
Qed.

(** ** Byte strings *)
Lemma beq_eq a b : beq a b = true <-> a = b.
Proof.
  revert b; induction a as [|x a IH]; intros [|y b]; cbn; try (split; congruence).
  rewrite andb_true_iff, N.eqb_eq, IH. split; [intros [-> ->]; reflexivity|intros H; injection H; auto].
Qed.
Lemma beq_refl a : beq a a = true. Proof. apply beq_eq. reflexivity. Qed.
Lemma beq_neq a b : beq a b = false <-> a <> b.
Proof. rewrite <- beq_eq. destruct (beq a b); split; congruence. Qed.
Lemma beq_sym a b : beq a b = beq b a.
Proof. apply eq_true_iff_eq. rewrite !beq_eq. split; congruence. Qed.

Lemma startswith_spec a pre : startswith a pre = true <-> exists t, a = pre ++ t.
Proof.
  revert a; induction pre as [|y pre IH]; intros a.
  - split; [exists a; reflexivity|]. intros _. now destruct a.
  - destruct a as [|x a]; cbn.
    + split; [discriminate|intros [t H]; discriminate].
    + rewrite andb_true_iff, N.eqb_eq, IH. split.
      * intros [-> [t ->]]. eauto.
      * intros [t H]. injection H as -> ->. eauto.
Qed.

Lemma blen_app a b : blen (a ++ b) = (blen a + blen b)%N.
Proof. unfold blen. rewrite app_length. lia. Qed.
Lemma blen_nil : blen [] = 0%N. Proof. reflexivity. Qed.

(** ** Lists *)
Section Lists.
Context {A : Type}.
Implicit Types l : list A.

Lemma firstn_skipn_add n m l : firstn (n + m) l = firstn n l ++ firstn m (skipn n l).
Proof.
  revert l; induction n as [|n IH]; intros l; [reflexivity|].
  destruct l as [|x l]; cbn; [now rewrite firstn_nil|]. now rewrite IH.
Qed.
Lemma skipn_add n m l : skipn (n + m) l = skipn m (skipn n l).
Proof.
  revert l; induction n as [|n IH]; intros l; [reflexivity|].
  destruct l as [|x l]; cbn; [now rewrite skipn_nil|]. now rewrite IH.
Qed.
Lemma firstn_app_le n l1 l2 : n <= length l1 -> firstn n (l1 ++ l2) = firstn n l1.
Proof. intros. rewrite firstn_app. replace (n - length l1) with 0 by lia. now rewrite app_nil_r. Qed.
Lemma firstn_app_ge n l1 l2 : length l1 <= n -> firstn n (l1 ++ l2) = l1 ++ firstn (n - length l1) l2.
Proof. intros. rewrite firstn_app. now rewrite firstn_all2. Qed.
Lemma skipn_app_le n l1 l2 : n <= length l1 -> skipn n (l1 ++ l2) = skipn n l1 ++ l2.
Proof. intros. rewrite skipn_app. now replace (n - length l1) with 0 by lia. Qed.
Lemma skipn_app_ge n l1 l2 : length l1 <= n -> skipn n (l1 ++ l2) = skipn (n - length l1) l2.
Proof. intros. rewrite skipn_app. now rewrite skipn_all2. Qed.
Lemma firstn_exact l1 l2 : firstn (length l1) (l1 ++ l2) = l1.
Proof. rewrite firstn_app_le by lia. apply firstn_all. Qed.
Lemma skipn_exact l1 l2 : skipn (length l1) (l1 ++ l2) = l2.
Proof. rewrite skipn_app_ge by lia. now rewrite Nat.sub_diag. Qed.

Lemma nth_error_firstn n l i : nth_error (firstn n l) i = if i <? n then nth_error l i else None.
Proof.
  revert l i; induction n as [|n IH]; intros l i.
  - cbn. destruct i; reflexivity.
  - destruct l as [|x l].
    + rewrite firstn_nil. destruct i; [reflexivity|]. destruct (S i <? S n); reflexivity.
    + destruct i as [|i]; cbn; [reflexivity|]. rewrite IH. reflexivity.
Qed.
Lemma nth_error_skipn n l i : nth_error (skipn n l) i = nth_error l (n + i).
Proof.
  revert l; induction n as [|n IH]; intros l; [reflexivity|].
  destruct l as [|x l]; cbn; [now destruct i|]. apply IH.
Qed.
Lemma nth_error_app l1 l2 i :
  nth_error (l1 ++ l2) i = if i <? length l1 then nth_error l1 i else nth_error l2 (i - length l1).
Proof.
  destruct (i <? length l1) eqn:E.
  - apply nth_error_app1. lia.
  - apply nth_error_app2. lia.
Qed.
Lemma nth_error_ext l1 l2 : (forall i, nth_error l1 i = nth_error l2 i) -> l1 = l2.
Proof.
  revert l2; induction l1 as [|x l1 IH]; intros [|y l2] H; [reflexivity| | |].
  - specialize (H 0). discriminate.
  - specialize (H 0). discriminate.
  - f_equal.
    + specialize (H 0). cbn in H. congruence.
    + apply IH. intros i. exact (H (S i)).
Qed.
Lemma nth_error_repeat (x : A) n i : nth_error (repeat x n) i = if i <? n then Some x else None.
Proof.
  revert i; induction n as [|n IH]; intros [|i]; cbn; try reflexivity. rewrite IH. reflexivity.
Qed.
Lemma nth_error_None_ge l i : length l <= i -> nth_error l i = None.
Proof. apply nth_error_None. Qed.

Lemma length_upd_nth n (x : A) l : length (upd_nth n x l) = length l.
Proof. revert n; induction l as [|h t IH]; intros [|n]; cbn; auto. Qed.
Lemma nth_error_upd_nth n (x : A) l i :
  nth_error (upd_nth n x l) i = if (i =? n) && (n <? length l) then Some x else nth_error l i.
Proof.
  revert n i; induction l as [|h t IH]; intros [|n] [|i]; cbn; try reflexivity.
  - now rewrite andb_false_r.
  - rewrite IH. reflexivity.
Qed.
End Lists.

Lemma nth_nth_error {A} (l : list A) i d : nth i l d = match nth_error l i with Some x => x | None => d end.
Proof. revert i; induction l as [|x l IH]; intros [|i]; cbn; auto. Qed.

Lemma length_overlay src buf : length src <= length buf -> length (overlay src buf) = length buf.
Proof. intros. unfold overlay. rewrite app_length, skipn_length. lia. Qed.
Lemma firstn_overlay src buf n : length src = n -> firstn n (overlay src buf) = src.
Proof. intros <-. unfold overlay. apply firstn_exact. Qed.
Lemma length_overlay_at off src buf :
  off + length src <= length buf -> length (overlay_at off src buf) = length buf.
Proof. intros. unfold overlay_at. rewrite !app_length, firstn_length, skipn_length. lia. Qed.
Lemma firstn_overlay_at off src buf :
  off <= length buf -> firstn (off + length src) (overlay_at off src buf) = firstn off buf ++ src.
Proof.
  intros. unfold overlay_at. rewrite app_assoc.
  replace (off + length src) with (length (firstn off buf ++ src)) by (rewrite app_length, firstn_length; lia).
  apply firstn_exact.
Qed.
