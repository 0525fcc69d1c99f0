(** A small separation logic for Res.v: [own b p m Q] says that, started with the
    objects [p] (and others that are left alone), [m] does nothing undefined, ends
    with objects as described by [Q] (its third argument lists what was given back,
    the last one first), and has at most [b] descriptors of its own open at any time. *)
From Verif Require Import Base Utils Encrypt Res.
From Coq Require Import Permutation Lia Arith.
Local Open Scope nat_scope.
Local Open Scope res_scope.

Definition wfr (st : rst) : Prop :=
  NoDup (map o_id (r_live st)) /\ Forall (fun o => o_id o < r_next st) (r_live st).

Definition own {A} (b : nat) (p : list robj) (m : RM A) (Q : A -> list robj -> list robj -> Prop) : Prop :=
  forall F st, wfr st -> Permutation (r_live st) (p ++ F) ->
  match m st with
  | (Ok a, st') => exists q g, Q a q g /\ wfr st' /\ Permutation (r_live st') (q ++ F) /\
                     r_gone st' = g ++ r_gone st /\
                     r_peak st' <= Nat.max (r_peak st) (b + fds F)
  | _ => False
  end.

Lemma own_ret {A} b p q (a : A) (Q : A -> list robj -> list robj -> Prop) :
  Q a q [] -> Permutation p q -> own b p (rret a) Q.
Proof.
  intros HQ HP F st W P; cbn. exists q, []. repeat split; auto; try apply W.
  - etransitivity; [exact P | apply Permutation_app_tail, HP].
  - lia.
Qed.

Lemma own_bind {A B} b p (m : RM A) (k : A -> RM B) Q R :
  own b p m Q -> (forall a q g, Q a q g -> own b q (k a) (fun c q' g' => R c q' (g' ++ g))) ->
  own b p (rbind m k) R.
Proof.
  intros Hm Hk F st W P. unfold rbind. specialize (Hm F st W P).
  destruct (m st) as [[a | | |] st']; try (exact Hm).
  destruct Hm as (q & g & HQ & W' & P' & Eg & Hp).
  specialize (Hk a q g HQ F st' W' P').
  destruct (k a st') as [[c | | |] st'']; try (exact Hk).
  destruct Hk as (q' & g' & HQ' & W'' & P'' & Eg' & Hp').
  exists q', (g' ++ g). repeat split; auto; try apply W''.
  - rewrite Eg', Eg, app_assoc; reflexivity.
  - lia.
Qed.

Lemma own_assoc {A B C} b p (m : RM A) (k : A -> RM B) (h : B -> RM C) Q :
  own b p (rbind m (fun a => rbind (k a) h)) Q -> own b p (rbind (rbind m k) h) Q.
Proof.
  intros H F st W P. specialize (H F st W P). unfold rbind in *.
  destruct (m st) as [[a | | |] st']; exact H.
Qed.

Lemma fds_cons o l : fds (o :: l) = (if is_fd o then 1 else 0) + fds l.
Proof. unfold fds; cbn. destruct (is_fd o); reflexivity. Qed.
Lemma fds_app l l' : fds (l ++ l') = fds l + fds l'.
Proof. unfold fds. rewrite filter_app, app_length. reflexivity. Qed.
Lemma fds_perm l l' : Permutation l l' -> fds l = fds l'.
Proof.
  induction 1; rewrite ?fds_cons in *; try lia; auto.
Qed.

Lemma own_frame {A} b b' p p0 x (m : RM A) Q :
  own b p0 m Q -> Permutation p (p0 ++ x) -> b + fds x <= b' ->
  own b' p m (fun a q g => exists q0, Q a q0 g /\ q = q0 ++ x).
Proof.
  intros Hm HP Hb F st W P.
  specialize (Hm (x ++ F) st W).
  assert (P1 : Permutation (r_live st) (p0 ++ x ++ F)).
  { etransitivity; [exact P |]. rewrite app_assoc. apply Permutation_app_tail, HP. }
  specialize (Hm P1).
  destruct (m st) as [[a | | |] st']; try (exact Hm).
  destruct Hm as (q & g & HQ & W' & P' & Eg & Hp).
  exists (q ++ x), g. repeat split; auto; try apply W'.
  - exists q; auto.
  - rewrite <- app_assoc; exact P'.
  - rewrite fds_app in Hp. lia.
Qed.

(** Calling [m] with part of what one has. *)
Lemma own_call {A B} b b' p p0 x (m : RM A) Q (k : A -> RM B) R :
  own b' p0 m Q -> Permutation p (p0 ++ x) -> b' + fds x <= b ->
  (forall a q g, Q a q g -> own b (q ++ x) (k a) (fun c q' g' => R c q' (g' ++ g))) ->
  own b p (rbind m k) R.
Proof.
  intros Hm HP Hb Hk.
  eapply own_bind; [eapply own_frame; eassumption |].
  cbn. intros a q g (q0 & HQ & ->). auto.
Qed.

Lemma own_conseq {A} b b' p p' (m : RM A) (Q Q' : A -> list robj -> list robj -> Prop) :
  own b p m Q -> b <= b' -> Permutation p' p ->
  (forall a q g, Q a q g -> exists q', Q' a q' g /\ Permutation q q') -> own b' p' m Q'.
Proof.
  intros H Hb HP HQ F st W P.
  assert (P1 : Permutation (r_live st) (p ++ F))
    by (etransitivity; [exact P | apply Permutation_app_tail, HP]).
  specialize (H F st W P1).
  destruct (m st) as [[a | | |] st']; try (exact H).
  destruct H as (q & g & Hq & W' & P' & Eg & Hp).
  destruct (HQ a q g Hq) as (q' & Hq' & Pq).
  exists q', g. repeat split; auto; try apply W'.
  - etransitivity; [exact P' | apply Permutation_app_tail, Pq].
  - lia.
Qed.

Lemma own_weaken {A} b p (m : RM A) (Q Q' : A -> list robj -> list robj -> Prop) :
  own b p m Q -> (forall a q g, Q a q g -> Q' a q g) -> own b p m Q'.
Proof.
  intros H HQ. eapply own_conseq; [exact H | apply Nat.le_refl | apply Permutation_refl |].
  intros a q g Hq. exists q; auto.
Qed.

Lemma own_perm {A} b p p' (m : RM A) Q : Permutation p p' -> own b p' m Q -> own b p m Q.
Proof. intros HP H. eapply own_conseq; [exact H | lia | exact HP |]. intros a q g Hq; exists q; auto. Qed.

(** *** Primitives, each followed by the rest of the program *)
Section PRIM.
Context {B : Type}.
Variable b : nat.
Variable p : list robj.
Variable R : B -> list robj -> list robj -> Prop.

Lemma own_retb {A} (a : A) k : own b p (k a) R -> own b p (rbind (rret a) k) R.
Proof. intros H; exact H. Qed.

Lemma own_answer k : (forall a, own b p (k a) R) -> own b p (rbind answer k) R.
Proof.
  intros Hk F st W P. unfold rbind, answer. destruct (r_ans st) as [| a t].
  - apply Hk; assumption.
  - exact (Hk a F (mkRst (r_live st) (r_next st) t (r_gone st) (r_peak st)) W P).
Qed.
Lemma own_ask k : own b p (k true) R -> own b p (k false) R -> own b p (rbind ask k) R.
Proof.
  intros HT HF. unfold ask. apply own_assoc, own_answer. intros [| n]; cbn; apply own_retb; assumption.
Qed.

Lemma own_create t d k :
  (if rkind_eqb t KFd then 1 else 0) + fds p <= b ->
  (forall i, own b (mkObj i t d :: p) (k i) R) -> own b p (rbind (create t d) k) R.
Proof.
  intros Hb Hk F st W P.
  assert (Hf : fds (mkObj (r_next st) t d :: r_live st) <= b + fds F).
  { rewrite fds_cons, (fds_perm _ _ P), fds_app. change (is_fd _) with (rkind_eqb t KFd). lia. }
  unfold rbind, create. cbv zeta.
  set (st1 := mkRst (mkObj (r_next st) t d :: r_live st) _ _ _ _).
  assert (W1 : wfr st1).
  { split; cbn.
    - constructor; [| apply W]. intros Hin. apply in_map_iff in Hin. destruct Hin as (o & Eo & Ho).
      destruct W as [_ W2]. rewrite Forall_forall in W2. specialize (W2 o Ho). lia.
    - constructor; [cbn; lia |]. eapply Forall_impl; [| apply W]. cbn; intros; lia. }
  specialize (Hk (r_next st) F st1 W1).
  assert (P1 : Permutation (r_live st1) ((mkObj (r_next st) t d :: p) ++ F)) by (cbn; auto).
  specialize (Hk P1).
  destruct (k (r_next st) st1) as [[c | | |] st']; try (exact Hk).
  destruct Hk as (q & g & HQ & W' & P' & Eg & Hp).
  exists q, g. repeat split; auto; try apply W'.
  unfold st1 in Hp; cbn [r_peak] in Hp. lia.
Qed.

Lemma own_acquire t d k :
  (if rkind_eqb t KFd then 1 else 0) + fds p <= b ->
  (forall i, own b (mkObj i t d :: p) (k (Some i)) R) -> own b p (k None) R ->
  own b p (rbind (acquire t d) k) R.
Proof.
  intros Hb HS HN. unfold acquire. apply own_assoc.
  unfold ask. apply own_assoc, own_answer. intros a. apply own_retb.
  destruct a; cbn.
  - apply own_assoc, own_create; [exact Hb |]. intros i. exact (HS i).
  - apply own_retb. exact HN.
Qed.
End PRIM.

Lemma rkind_eqb_refl k : rkind_eqb k k = true.
Proof. destruct k; reflexivity. Qed.

Lemma nodup_id (l : list robj) o1 o2 :
  NoDup (map o_id l) -> In o1 l -> In o2 l -> o_id o1 = o_id o2 -> o1 = o2.
Proof.
  induction l as [| a l IH]; cbn; [easy |]. intros ND. inversion ND; subst.
  intros [-> | H1'] [-> | H2'] E; auto.
  - exfalso; apply H1. rewrite E. apply in_map; assumption.
  - exfalso; apply H1. rewrite <- E. apply in_map; assumption.
Qed.

Lemma lookup_live l o :
  NoDup (map o_id l) -> In o l -> lookup (o_id o) (o_kind o) l = Some o.
Proof.
  intros ND Hin. unfold lookup.
  destruct (find (fun o0 => same (o_id o) o0 && rkind_eqb (o_kind o0) (o_kind o)) l) as [o' |] eqn:E.
  - apply find_some in E. destruct E as [Hin' E]. apply andb_prop in E. destruct E as [E _].
    apply Nat.eqb_eq in E. f_equal. eapply nodup_id; eauto.
  - exfalso. pose proof (find_none _ _ E o Hin) as C. cbn in C.
    unfold same in C. rewrite Nat.eqb_refl, rkind_eqb_refl in C. discriminate.
Qed.

Lemma in_own (p F l : list robj) o : Permutation l ((o :: p) ++ F) -> In o l.
Proof. intros P. apply (Permutation_in o (Permutation_sym P)). left; reflexivity. Qed.

Lemma filter_out (l : list robj) o l' :
  NoDup (map o_id l) -> Permutation l (o :: l') ->
  Permutation (filter (fun x => negb (same (o_id o) x)) l) l'.
Proof.
  intros ND P.
  assert (ND' : NoDup (map o_id (o :: l'))).
  { eapply Permutation_NoDup; [apply Permutation_map, P | exact ND]. }
  assert (PF : Permutation (filter (fun x => negb (same (o_id o) x)) l)
                           (filter (fun x => negb (same (o_id o) x)) (o :: l'))).
  { clear ND ND'. revert P. generalize (o :: l') as l2. intros l2 P.
    induction P; cbn; auto.
    - destruct (negb (same (o_id o) x)); auto.
    - destruct (negb (same (o_id o) x)), (negb (same (o_id o) y)); auto. constructor.
    - etransitivity; eauto. }
  etransitivity; [exact PF |]. cbn. unfold same at 1. rewrite Nat.eqb_refl. cbn.
  inversion ND'; subst.
  assert (E : filter (fun x => negb (same (o_id o) x)) l' = l').
  { clear -H1. induction l' as [| a l' IH]; cbn; auto.
    cbn in H1. unfold same. destruct (Nat.eqb (o_id a) (o_id o)) eqn:E.
    - apply Nat.eqb_eq in E. exfalso; apply H1; left; exact E.
    - cbn. f_equal. apply IH. intros C; apply H1; right; exact C. }
  rewrite E. apply Permutation_refl.
Qed.

Lemma nodup_filter (f : robj -> bool) l : NoDup (map o_id l) -> NoDup (map o_id (filter f l)).
Proof.
  induction l as [| a l IH]; cbn; auto. intros ND. inversion ND; subst.
  destruct (f a); cbn; auto. constructor; auto.
  intros C. apply H1. apply in_map_iff in C. destruct C as (o & E & Ho).
  apply filter_In in Ho. rewrite <- E. apply in_map. apply Ho.
Qed.

Lemma own_release {B} b p p' i t d (k : unit -> RM B) R :
  Permutation p (mkObj i t d :: p') ->
  own b p' (k tt) (fun c q g => R c q (g ++ [mkObj i t d])) -> own b p (rbind (release i t) k) R.
Proof.
  intros HP Hk. apply own_perm with (1 := HP). clear p HP.
  intros F st W P. unfold rbind, release.
  pose proof (in_own _ _ _ _ P) as Hin.
  pose proof (lookup_live _ _ (proj1 W) Hin) as E. cbn in E. rewrite E.
  set (st1 := mkRst _ _ _ _ _).
  assert (W1 : wfr st1).
  { split; cbn.
    - apply nodup_filter, W.
    - apply Forall_forall. intros o Ho. apply filter_In in Ho.
      destruct W as [_ W2]. rewrite Forall_forall in W2. apply W2, Ho. }
  assert (P1 : Permutation (r_live st1) (p' ++ F)).
  { apply (filter_out (r_live st) (mkObj i t d)); [apply W | exact P]. }
  specialize (Hk F st1 W1 P1).
  destruct (k tt st1) as [[c | | |] st']; try (exact Hk).
  destruct Hk as (q & g & HQ & W' & P' & Eg & Hp).
  exists q, (g ++ [mkObj i t d]). repeat split; auto; try apply W'.
  rewrite Eg. unfold st1; cbn. rewrite <- app_assoc. reflexivity.
Qed.

Lemma own_touch {B} b p p' i t d (k : bytes -> RM B) R :
  Permutation p (mkObj i t d :: p') -> own b p (k d) R -> own b p (rbind (touch i t) k) R.
Proof.
  intros HP Hk. intros F st W P. unfold rbind, touch.
  assert (Hin : In (mkObj i t d) (r_live st)).
  { apply (Permutation_in _ (Permutation_sym P)). apply in_or_app; left.
    apply (Permutation_in _ (Permutation_sym HP)). left; reflexivity. }
  pose proof (lookup_live _ _ (proj1 W) Hin) as E. cbn in E. rewrite E. cbn.
  apply Hk; assumption.
Qed.

Lemma own_put {B} b p p' i t d d' (k : unit -> RM B) R :
  Permutation p (mkObj i t d :: p') -> own b (mkObj i t d' :: p') (k tt) R ->
  own b p (rbind (put i t d') k) R.
Proof.
  intros HP Hk. apply own_perm with (1 := HP). clear p HP.
  intros F st W P. unfold rbind, put.
  pose proof (in_own _ _ _ _ P) as Hin.
  pose proof (lookup_live _ _ (proj1 W) Hin) as E. cbn in E. rewrite E.
  set (f := fun o => if same i o then mkObj (o_id o) (o_kind o) d' else o).
  assert (Eid : map o_id (map f (r_live st)) = map o_id (r_live st)).
  { rewrite map_map. apply map_ext. intros o. unfold f. destruct (same i o); reflexivity. }
  set (st1 := mkRst _ _ _ _ _).
  assert (W1 : wfr st1).
  { split; cbn.
    - rewrite Eid. apply W.
    - apply Forall_forall. intros o Ho. apply in_map_iff in Ho. destruct Ho as (o' & <- & Ho').
      destruct W as [_ W2]. rewrite Forall_forall in W2. specialize (W2 o' Ho').
      unfold f. destruct (same i o'); exact W2. }
  assert (P1 : Permutation (r_live st1) ((mkObj i t d' :: p') ++ F)).
  { cbn. etransitivity; [apply Permutation_map, P |]. cbn.
    unfold f at 1. unfold same at 1. cbn. rewrite Nat.eqb_refl. apply perm_skip.
    assert (ND : NoDup (map o_id ((mkObj i t d :: p') ++ F))).
    { eapply Permutation_NoDup; [apply Permutation_map, P | apply W]. }
    cbn in ND. inversion ND; subst.
    assert (Em : map f (p' ++ F) = p' ++ F).
    { clear -H1. induction (p' ++ F) as [| a l IH]; cbn; auto. cbn in H1. f_equal.
      - unfold f, same. destruct (Nat.eqb (o_id a) i) eqn:E; auto.
        apply Nat.eqb_eq in E. exfalso; apply H1; left; exact E.
      - apply IH. intros C; apply H1; right; exact C. }
    rewrite Em. apply Permutation_refl. }
  exact (Hk F st1 W1 P1).
Qed.

Lemma own_wipe {B} b p p' i t d n (k : unit -> RM B) R :
  Permutation p (mkObj i t d :: p') -> own b (mkObj i t (zeroed n d) :: p') (k tt) R ->
  own b p (rbind (wipe i t n) k) R.
Proof.
  intros HP Hk. unfold wipe. apply own_assoc.
  eapply own_touch; [exact HP |]. eapply own_put; [exact HP | exact Hk].
Qed.

(** A program is what it is followed by nothing. *)
Lemma own_tail {A} b p (m : RM A) R : own b p (rbind m rret) R -> own b p m R.
Proof.
  intros H F st W P. specialize (H F st W P). unfold rbind, rret in H.
  destruct (m st) as [[a | | |] st']; exact H.
Qed.

(** Bringing an object to the front. *)
Lemma perm_next (a b : robj) l r : Permutation l (a :: r) -> Permutation (b :: l) (a :: b :: r).
Proof. intros H. etransitivity; [apply perm_skip, H | apply perm_swap]. Qed.
Ltac perm_front :=
  lazymatch goal with
  | |- Permutation (mkObj ?i ?k _ :: _) (mkObj ?i ?k _ :: _) => apply Permutation_refl
  | |- Permutation (_ :: _) (_ :: _) =>
      eapply perm_next; perm_front
  end.
Lemma perm_pick (a : robj) l r m : Permutation l (a :: r) -> Permutation r m -> Permutation l (a :: m).
Proof. intros H1 H2. etransitivity; [exact H1 | apply perm_skip, H2]. Qed.
Ltac perm_all :=
  lazymatch goal with
  | |- Permutation [] [] => constructor
  | |- Permutation ?l ?l => apply Permutation_refl
  | |- Permutation ?l (?a :: ?m) =>
      eapply perm_pick; [perm_front | perm_all]
  end.

Ltac own_step :=
  cbn [fst snd negb];
  lazymatch goal with
  | |- own _ _ (rbind (rbind _ _) _) _ => apply own_assoc
  | |- own _ _ (rbind (rret _) _) _ => apply own_retb
  | |- own _ _ (rbind answer _) _ => apply own_answer; intros [| ?]
  | |- own _ _ (rbind ask _) _ => apply own_ask
  | |- own _ _ (rbind (create _ _) _) _ => apply own_create; [cbn; lia | intros ?]
  | |- own _ _ (rbind (acquire _ _) _) _ => apply own_acquire; [cbn; lia | intros ? |]
  | |- own _ _ (rbind (release _ _) _) _ => eapply own_release; [perm_front |]
  | |- own _ _ (rbind (touch _ _) _) _ => eapply own_touch; [perm_front |]
  | |- own _ _ (rbind (put _ _ _) _) _ => eapply own_put; [perm_front |]
  | |- own _ _ (rbind (wipe _ _ _) _) _ => eapply own_wipe; [perm_front |]
  | |- own _ _ (release _ _) _ => apply own_tail
  | |- own _ _ (wipe _ _ _) _ => apply own_tail
  | |- own _ _ ask _ => apply own_tail
  end.
Ltac own_run := cbn [fst snd negb]; repeat (own_step; cbn [app fst snd negb]).
Ltac own_end :=
  lazymatch goal with |- own _ _ (rret _) _ => eapply own_ret; [| apply Permutation_refl] end.
Ltac own_go := own_run; try own_end.
