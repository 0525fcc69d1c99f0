(** What the functions of Res.v own: the chain and a whole run. *)
From Verif Require Import Base Utils Encrypt Res SpecRes PfRes PfRes2 PfRes3.
From Coq Require Import Permutation Lia Arith.
Local Open Scope nat_scope.
Local Open Scope res_scope.

Definition tobjs (t : rtarget) : list robj :=
  mkObj (t_obj t) KMem [] :: mkObj (t_fd t) KFd [] :: opt KMem (t_idx t).
Lemma fds_tobjs t : fds (tobjs t) = 1.
Proof. unfold tobjs. destruct (t_idx t); reflexivity. Qed.

Lemma target_use_own t b : own b (tobjs t) (target_use t) (fun _ q g => q = tobjs t /\ g = []).
Proof.
  destruct t as [o fd ix]. unfold target_use, tobjs; cbn. destruct ix; cbn [opt]; own_go; split; reflexivity.
Qed.
Lemma target_make_own :
  own 1 [] target_make (fun r q _ => match r with None => q = [] | Some t => q = tobjs t /\ t_idx t = None end).
Proof.
  unfold target_make. own_run; try (own_end; reflexivity).
  eapply own_ret; [split; reflexivity |]. unfold tobjs; cbn. perm_all.
Qed.
Lemma target_store_own t :
  own 1 (tobjs t) (target_store t) (fun r q _ => match r with None => True | Some t' => q = tobjs t' /\ t_idx t' <> None end).
Proof.
  destruct t as [o fd ix]. unfold target_store, tobjs; cbn. destruct ix as [i |]; cbn [opt]; own_run.
  - own_end. split; [reflexivity | discriminate].
  - eapply own_ret; [split; [reflexivity | discriminate] |]. unfold tobjs; cbn. perm_all.
  - own_end. exact Logic.I.
Qed.

(** *** The stores of a chain *)
Definition sobj (s : rstore * bool) (q : list robj) : Prop :=
  match fst s with
  | RTarget => q = []
  | RHttp h => exists a d, q = http_objs a h d /\ length d <= 64 /\ (h_cipher h = None -> d = [])
  | RLocal l => l_special l = false /\
                (local_live l q \/ (snd s = false /\ q = local_base l /\ l_idx l = None))
  end.
Inductive sobjs : list (rstore * bool) -> list robj -> Prop :=
| so_nil : sobjs [] []
| so_cons s q l q' : sobj s q -> sobjs l q' -> sobjs (s :: l) (q ++ q').

Definition rlocal_p (s : rstore * bool) : bool := match fst s with RLocal _ => true | _ => false end.
Definition locals (l : list (rstore * bool)) : nat := length (filter rlocal_p l).
Definition is1 (s : rstore * bool) : nat := if rlocal_p s then 1 else 0.
Lemma locals_cons s l : locals (s :: l) = is1 s + locals l.
Proof. unfold locals, is1; cbn. destruct (rlocal_p s); reflexivity. Qed.
Lemma locals_app l l' : locals (l ++ l') = locals l + locals l'.
Proof. unfold locals. rewrite filter_app, app_length. reflexivity. Qed.

Lemma fds_http a h d : fds (http_objs a h d) = 0.
Proof. unfold http_objs. destruct (h_dec h), (h_cipher h); reflexivity. Qed.
Lemma fds_sobj s q : sobj s q -> fds q = is1 s.
Proof.
  destruct s as [[| h | l] b]; unfold sobj, is1; cbn.
  - intros ->. reflexivity.
  - intros (a & d & -> & _). apply fds_http.
  - intros (_ & [(i & _ & ->) | (_ & -> & _)]); reflexivity.
Qed.
Lemma fds_sobjs l q : sobjs l q -> fds q = locals l.
Proof.
  induction 1; [reflexivity |]. rewrite fds_app, locals_cons, (fds_sobj _ _ H), IHsobjs. reflexivity.
Qed.
Lemma sobjs_app l q l' q' : sobjs l q -> sobjs l' q' -> sobjs (l ++ l') (q ++ q').
Proof.
  induction 1; intros H'; cbn; auto. rewrite <- app_assoc. constructor; auto.
Qed.
Lemma sobj_deact s b q : sobj (s, b) q -> sobj (s, false) q.
Proof.
  destruct s as [| h | l]; unfold sobj; cbn; auto. intros (E & [H | (_ & H & H')]); split; auto.
Qed.

Lemma store_get_own t nonce segs s q0 :
  sobj (s, true) q0 ->
  own (1 + is1 (s, true)) (tobjs t ++ q0) (store_get t nonce segs s) (fun r q _ =>
    exists q', q = tobjs t ++ q' /\ sobj (snd r, fst r) q' /\ is1 (snd r, fst r) = is1 (s, true)).
Proof.
  intros H. destruct s as [| h | l]; cbn [store_get]; unfold sobj in H; cbn in H.
  - subst q0. rewrite app_nil_r. eapply own_bind; [apply target_use_own |]. cbn beta. intros ok q g [-> _].
    own_go. exists []. rewrite app_nil_r. repeat split.
  - destruct H as (a & d & -> & L & Hd).
    eapply own_call with (p0 := http_objs a h d) (b' := 0) (x := tobjs t);
      [apply http_get_own, L | apply Permutation_app_comm | rewrite fds_tobjs; cbn; lia |].
    cbn beta. intros [ok h'] q g (-> & E & _). cbn [fst snd] in *.
    eapply own_ret; [| apply Permutation_app_comm]. exists (http_objs a h' d).
    split; [reflexivity |]. split; [| reflexivity]. unfold sobj; cbn. exists a, d. repeat split; auto. rewrite E. exact Hd.
  - destruct H as (Hs & [HL | (C & _)]); [| discriminate].
    eapply own_call with (p0 := q0) (b' := 1) (x := tobjs t);
      [apply local_get_own, HL | apply Permutation_app_comm | rewrite fds_tobjs; cbn; lia |].
    cbn beta. intros [ok l'] q g ((_ & _ & Es) & H). cbn [fst snd] in *.
    eapply own_ret; [| apply Permutation_app_comm]. exists q.
    split; [reflexivity |]. split; [| reflexivity]. unfold sobj; cbn. split; [congruence |].
    destruct ok; [left; exact H |]. destruct H as [H | (-> & [E | E])]; [left; exact H | right; auto | congruence].
Qed.

Lemma chain_get_own t nonce segs l : forall q0,
  sobjs l q0 ->
  own (1 + locals l) (tobjs t ++ q0) (chain_get t nonce segs l) (fun l' q _ =>
    exists q', q = tobjs t ++ q' /\ sobjs l' q' /\ locals l' = locals l).
Proof.
  induction l as [| [s act] l IH]; intros q0 H; inversion H; subst; cbn [chain_get].
  - own_go. exists []. repeat split. constructor.
  - rename q into qs, q' into ql.
    assert (Hrest : forall s' b' qs', sobj (s', b') qs' -> is1 (s', b') = is1 (s, act) ->
      own (1 + locals ((s, act) :: l)) (tobjs t ++ qs' ++ ql)
        (l' <~ chain_get t nonce segs l ;; rret ((s', b') :: l'))
        (fun l' q _ => exists q', q = tobjs t ++ q' /\ sobjs l' q' /\ locals l' = locals ((s, act) :: l))).
    { intros s' b' qs' Hs E.
      eapply own_call with (p0 := tobjs t ++ ql) (x := qs');
        [apply IH; assumption | | rewrite locals_cons, <- E, (fds_sobj _ _ Hs); lia |].
      { rewrite <- app_assoc. apply Permutation_app_head, Permutation_app_comm. }
      cbn beta. intros l' q g (q' & -> & Hl' & El).
      eapply own_ret with (q := tobjs t ++ qs' ++ q').
      - exists (qs' ++ q'). split; [reflexivity |]. split; [constructor; assumption |].
        rewrite !locals_cons. lia.
      - rewrite <- app_assoc. apply Permutation_app_head, Permutation_app_comm. }
    destruct act.
    + eapply own_call with (p0 := tobjs t ++ qs) (x := ql) (b' := 1 + is1 (s, true));
        [apply store_get_own; assumption | rewrite app_assoc; apply Permutation_refl
        | rewrite locals_cons, (fds_sobjs _ _ H4); lia |].
      cbn beta. intros [ok s'] q g (q' & -> & Hs & E). cbn [fst snd] in *. rewrite <- app_assoc.
      destruct ok; cbn [negb].
      * own_step.
        -- own_go. exists (q' ++ ql). split; [reflexivity |]. split; [constructor; assumption |].
           rewrite !locals_cons. lia.
        -- eapply own_weaken; [apply Hrest; assumption |]. auto.
      * eapply own_weaken; [apply Hrest; assumption |]. auto.
    + apply Hrest; auto.
Qed.

Lemma store_free_own s q0 :
  sobj s q0 -> own (is1 s) q0 (store_free (fst s)) (fun _ q _ => exists ids, q = map (fun i => mkObj i KFd []) ids /\ length ids = is1 s).
Proof.
  destruct s as [[| h | l] b]; unfold sobj; cbn [fst snd store_free].
  - intros ->. own_go. exists []. auto.
  - intros (a & d & -> & L & Hd). eapply own_weaken; [apply http_free_own, Hd |].
    cbn. intros _ q g (-> & _). exists []. auto.
  - intros (_ & H). eapply own_weaken; [apply local_free_own |].
    + destruct H as [H | (_ & H)]; auto.
    + cbn. intros _ q g ->. exists [l_fd l]. auto.
Qed.

Definition fdobjs (ids : list nat) : list robj := map (fun i => mkObj i KFd []) ids.
Lemma fds_fdobjs ids : fds (fdobjs ids) = length ids.
Proof. induction ids; cbn; auto. Qed.

Lemma stores_free_own l q0 :
  sobjs l q0 ->
  own (locals l) q0 (stores_free l) (fun _ q _ => exists ids, q = fdobjs ids /\ length ids = locals l).
Proof.
  induction 1 as [| s q l q' Hs Hl IH]; cbn [stores_free].
  - own_go. exists []. auto.
  - destruct s as [s b]. rewrite locals_cons.
    eapply own_call with (p0 := q) (b' := is1 (s, b));
      [apply (store_free_own _ _ Hs) | apply Permutation_refl | rewrite (fds_sobjs _ _ Hl); lia |].
    cbn beta. intros _ q2 g (ids & -> & Ei).
    eapply own_conseq with (b := is1 (s, b) + locals l);
      [eapply own_frame; [exact IH | apply Permutation_app_comm | change (map _ ids) with (fdobjs ids); rewrite fds_fdobjs, Ei; apply Nat.eq_le_incl, Nat.add_comm]
      | apply Nat.le_refl | apply Permutation_refl |].
    cbn beta. intros _ q3 g' (q0 & (ids' & -> & Ei') & ->).
    exists (fdobjs (ids' ++ ids)). split; [exists (ids' ++ ids); rewrite app_length; split; [reflexivity | lia] |].
    unfold fdobjs. rewrite map_app. apply Permutation_refl.
Qed.

(** *** Building the chain *)
Definition lost (a : rarg) : nat := match a with AHttp _ ps => encrypts ps - 1 | _ => 0 end.
Definition loc1 (a : rarg) : nat := if is_local a then 1 else 0.
Definition cobjs (c : rchain) : list robj := [mkObj (c_sc c) KMem []; mkObj (c_arr c) KMem []].
(** [n]: contexts lost so far *)
Definition cstate (t : rtarget) (c : rchain) (n : nat) (q : list robj) : Prop :=
  exists q0 ids, sobjs (c_stores c) q0 /\ length ids = n /\
    Permutation q (tobjs t ++ cobjs c ++ q0 ++ cips ids).

Lemma chain_new_own hint :
  own 0 [] (chain_new hint) (fun r q _ => match r with None => True
     | Some c => Permutation q (cobjs c) /\ c_stores c = [] end).
Proof.
  unfold chain_new. own_go; try exact Logic.I. split; [| reflexivity]. unfold cobjs; cbn. perm_all.
Qed.

Lemma chain_append_own c s :
  own 0 (cobjs c) (chain_append c s) (fun r q _ => q = cobjs (snd r) /\
    (fst r = true -> c_stores (snd r) = c_stores c ++ [(s, true)])).
Proof.
  unfold chain_append, cobjs. own_step. own_step.
  destruct (Nat.leb (c_space c) (length (c_stores c))); own_go; split; auto; discriminate.
Qed.

Lemma append_arg_own t c a n q0 :
  is_odd a = false -> cstate t c n q0 ->
  own (2 + locals (c_stores c) + loc1 a) q0 (append_arg t c a) (fun r q _ =>
    match r with
    | None => True
    | Some (t', c') => cstate t' c' (n + lost a) q /\ locals (c_stores c') = locals (c_stores c) + loc1 a /\
        (t_idx t' = None <-> t_idx t = None /\ is_target a = false)
    end).
Proof.
  intros Hodd (qs & ids & Hs & Hn & Hp).
  apply own_perm with (1 := Hp). clear q0 Hp.
  (* after the store was made *)
  assert (Happ : forall t' s qs' ids', sobj (s, true) qs' -> is1 (s, true) = loc1 a -> length ids' = lost a ->
    own (2 + locals (c_stores c) + loc1 a) (cobjs c ++ tobjs t' ++ qs ++ qs' ++ cips ids ++ cips ids')
      (r <~ chain_append c s ;; rret (if fst r then Some (t', snd r) else None))
      (fun r q _ => match r with None => True
        | Some (t'', c') => t'' = t' /\ cstate t'' c' (n + lost a) q /\
            locals (c_stores c') = locals (c_stores c) + loc1 a end)).
  { intros t' s qs' ids' Hs' E1 E2.
    eapply own_call with (b' := 0);
      [apply chain_append_own | apply Permutation_refl | |].
    { rewrite !fds_app, fds_tobjs, !fds_cips, (fds_sobjs _ _ Hs), (fds_sobj _ _ Hs'). lia. }
    cbn beta. intros [ok c'] q g (-> & Hc). cbn [fst snd] in *.
    own_go. destruct ok; [| exact Logic.I]. specialize (Hc eq_refl).
    split; [reflexivity |]. split.
    - exists (qs ++ qs'), (ids ++ ids'). rewrite Hc. split; [| split].
      + apply sobjs_app; [exact Hs |]. rewrite <- (app_nil_r qs'). constructor; [exact Hs' | constructor].
      + rewrite app_length. lia.
      + unfold cips. rewrite map_app. fold (cips ids) (cips ids'). rewrite <- !app_assoc.
        etransitivity; [rewrite app_assoc; apply Permutation_app_tail, Permutation_app_comm |].
        rewrite <- app_assoc. apply Permutation_refl.
    - rewrite Hc, locals_app. unfold locals at 2. cbn [filter length].
      unfold is1 in E1. destruct (rlocal_p (s, true)); cbn [length]; lia. }
  unfold append_arg. destruct a as [| arg ps | sp ix].
  - apply own_assoc.
    eapply own_call with (p0 := tobjs t) (b' := 1);
      [apply target_store_own | apply Permutation_refl | |].
    { rewrite !fds_app, fds_cips, (fds_sobjs _ _ Hs). cbn. lia. }
    cbn beta. intros [t' |] q g H; own_step; [| own_go; exact Logic.I].
    destruct H as [-> Ht].
    eapply own_conseq;
      [apply (Happ t' RTarget [] []); [reflexivity | reflexivity | reflexivity]
      | apply Nat.le_refl | |].
    + cbn [cips map app]. rewrite app_nil_r.
      rewrite app_assoc. etransitivity; [apply Permutation_app_tail, Permutation_app_comm |].
      rewrite <- app_assoc. apply Permutation_refl.
    + cbn beta. intros r q g' H. exists q. split; [| apply Permutation_refl].
      destruct r as [[t2 c2] |]; auto. destruct H as (-> & H1 & H2). split; [exact H1 |]. split; [exact H2 |].
      cbn. split; [intros C; contradiction | intros [_ C]; discriminate].
  - apply own_assoc.
    eapply own_call with (p0 := []) (b' := 1) (x := tobjs t ++ cobjs c ++ qs ++ cips ids);
      [apply http_new_own | apply Permutation_refl | |].
    { rewrite !fds_app, fds_tobjs, fds_cips, (fds_sobjs _ _ Hs). cbn. lia. }
    cbn beta. intros [s |] q g H; own_step; [| own_go; exact Logic.I].
    destruct H as (d & ids' & -> & L & _ & Hi & _ & Hd & _).
    eapply own_conseq;
      [apply (Happ t (RHttp s) (http_objs arg s d) ids'); [exists arg, d; repeat split; auto | reflexivity | exact Hi]
      | apply Nat.le_refl | |].
    + etransitivity; [apply Permutation_app_comm |].
      rewrite <- !app_assoc.
      etransitivity; [rewrite app_assoc; apply Permutation_app_tail, Permutation_app_comm |].
      rewrite <- !app_assoc. do 3 apply Permutation_app_head.
      rewrite !app_assoc. apply Permutation_app_tail. apply Permutation_app_comm.
    + cbn beta. intros r q g' H. exists q. split; [| apply Permutation_refl].
      destruct r as [[t2 c2] |]; auto. destruct H as (-> & H1 & H2). split; [exact H1 |]. split; [exact H2 |].
      cbn. tauto.
  - apply own_assoc.
    eapply own_call with (p0 := []) (b' := 2) (x := tobjs t ++ cobjs c ++ qs ++ cips ids);
      [apply local_new_own | apply Permutation_refl | |].
    { rewrite !fds_app, fds_tobjs, fds_cips, (fds_sobjs _ _ Hs). cbn. lia. }
    cbn beta. intros [s |] q g H; own_step; [| own_go; exact Logic.I].
    destruct H as (HL & Es & Hi).
    assert (Hsp : l_special s = false).
    { destruct sp; [| congruence]. rewrite (Hi eq_refl) in Hodd. discriminate. }
    eapply own_conseq;
      [apply (Happ t (RLocal s) q []); [split; [exact Hsp | left; exact HL] | reflexivity | reflexivity]
      | apply Nat.le_refl | |].
    + cbn [cips map app]. rewrite app_nil_r.
      etransitivity; [apply Permutation_app_comm |].
      rewrite <- !app_assoc.
      etransitivity; [rewrite app_assoc; apply Permutation_app_tail, Permutation_app_comm |].
      rewrite <- !app_assoc. do 3 apply Permutation_app_head. apply Permutation_app_comm.
    + cbn beta. intros r q' g' H. exists q'. split; [| apply Permutation_refl].
      destruct r as [[t2 c2] |]; auto. destruct H as (-> & H1 & H2). split; [exact H1 |]. split; [exact H2 |].
      cbn. tauto.
Qed.

Lemma append_args_own l : forall t c n q0,
  forallb (fun a => negb (is_odd a)) l = true -> cstate t c n q0 ->
  own (2 + locals (c_stores c) + n_local l) q0 (append_args t c l) (fun r q _ =>
    match r with
    | None => True
    | Some (t', c') => cstate t' c' (n + n_lost l) q /\ locals (c_stores c') = locals (c_stores c) + n_local l /\
        (t_idx t' = None <-> t_idx t = None /\ existsb is_target l = false)
    end).
Proof.
  induction l as [| a l IH]; intros t c n q0 Hodd Hc; cbn [append_args].
  - own_go. unfold n_lost, n_local; cbn. rewrite !Nat.add_0_r. split; [exact Hc |]. split; [reflexivity |]. tauto.
  - cbn [forallb] in Hodd. apply andb_prop in Hodd. destruct Hodd as [Ha Hl].
    apply negb_true_iff in Ha.
    assert (En : n_local (a :: l) = loc1 a + n_local l).
    { unfold n_local, loc1. cbn [filter]. destruct (is_local a); reflexivity. }
    eapply own_call with (x := []) (b' := 2 + locals (c_stores c) + loc1 a);
      [apply (append_arg_own t c a n q0 Ha Hc) | now rewrite app_nil_r | cbn [fds filter length]; lia |].
    cbn beta. intros [[t1 c1] |] q g H; rewrite app_nil_r; [| own_go; exact Logic.I].
    destruct H as (Hc1 & Hl1 & Ht1).
    eapply own_conseq; [apply (IH t1 c1 _ q Hl Hc1) | rewrite Hl1; lia | apply Permutation_refl |].
    cbn beta. intros r q' g' H. exists q'. split; [| apply Permutation_refl].
    destruct r as [[t2 c2] |]; [| exact Logic.I]. destruct H as (H1 & H2 & H3).
    split; [| split].
    + replace (n + n_lost (a :: l)) with (n + lost a + n_lost l); [exact H1 |].
      unfold n_lost, lost. cbn [map fold_right]. lia.
    + rewrite H2, Hl1. lia.
    + rewrite H3, Ht1. cbn [existsb]. rewrite orb_false_iff. tauto.
Qed.

(** *** The entries of the index *)
Lemma entries_own ix t l : forall c q0,
  sobjs c q0 ->
  own (2 + locals c) (mkObj ix KFd [] :: tobjs t ++ q0) (entries ix t l c) (fun r q _ =>
    exists q', q = mkObj ix KFd [] :: tobjs t ++ q' /\ sobjs (snd r) q' /\ locals (snd r) = locals c).
Proof.
  induction l as [| [nonce segs] l IH]; intros c q0 Hc; cbn [entries].
  - own_go. exists q0. auto.
  - own_step. own_step; cbn [negb]; [| own_go; exists q0; auto].
    assert (Huse : forall A (k : bool -> RM A) c' q1 R, sobjs c' q1 -> locals c' = locals c ->
      (forall ok, own (2 + locals c) (mkObj ix KFd [] :: tobjs t ++ q1) (k ok) R) ->
      own (2 + locals c) (mkObj ix KFd [] :: tobjs t ++ q1) (rbind (target_use t) k) R).
    { intros A k c' q1 R H1 E1 Hk.
      eapply own_call with (p0 := tobjs t) (x := mkObj ix KFd [] :: q1) (b' := 0);
        [apply target_use_own | apply Permutation_middle | rewrite fds_cons, (fds_sobjs _ _ H1); cbn; lia |].
      cbn beta. intros ok q g [-> ->].
      eapply own_perm; [symmetry; apply Permutation_middle |].
      eapply own_weaken; [apply Hk |]. intros a q g' H. now rewrite app_nil_r. }
    (* after the chain was asked *)
    assert (Htail : forall c' q1, sobjs c' q1 -> locals c' = locals c ->
      own (2 + locals c) (mkObj ix KFd [] :: tobjs t ++ q1)
        (ok <~ ask ;; if negb ok then rret (false, c') else
         ok <~ target_use t ;; if negb ok then rret (false, c') else entries ix t l c')
        (fun r q _ => exists q', q = mkObj ix KFd [] :: tobjs t ++ q' /\ sobjs (snd r) q' /\ locals (snd r) = locals c)).
    { intros c' q1 H1 E1. own_step; cbn [negb]; [| own_go; exists q1; auto].
      apply (Huse _ _ c'); auto. intros [|]; cbn [negb]; [| own_go; exists q1; auto].
      rewrite <- E1. apply IH, H1. }
    apply (Huse _ _ c); auto. intros there. destruct there; [apply IH, Hc |].
    own_step.
    + own_step. apply Htail; auto.
    + eapply own_call with (p0 := tobjs t ++ q0) (x := [mkObj ix KFd []]) (b' := 1 + locals c);
        [apply chain_get_own, Hc | apply Permutation_cons_append | cbn; lia |].
      cbn beta. intros c' q g (q1 & -> & H1 & E1).
      eapply own_perm; [symmetry; apply Permutation_cons_append |].
      eapply own_weaken; [apply (Htail c' q1); auto |]. auto.
Qed.

(** *** A run *)
Lemma count_app k l l' : count k (l ++ l') = count k l + count k l'.
Proof. unfold count. rewrite filter_app, app_length. reflexivity. Qed.
Lemma count_perm k l l' : Permutation l l' -> count k l = count k l'.
Proof. induction 1; unfold count in *; cbn; try (destruct (rkind_eqb (o_kind x) k)); try (destruct (rkind_eqb (o_kind y) k)); cbn; lia. Qed.
Lemma count_fdobjs k ids : count k (fdobjs ids) = if rkind_eqb KFd k then length ids else 0.
Proof. unfold count, fdobjs, cips. induction ids; destruct k; cbn in *; lia. Qed.
Lemma count_cips k ids : count k (cips ids) = if rkind_eqb KCipher k then length ids else 0.
Proof. unfold count, fdobjs, cips. induction ids; destruct k; cbn in *; lia. Qed.

Lemma run_own hint args reqs :
  forallb (fun a => negb (is_odd a)) args = true ->
  own (3 + n_local args) [] (run hint args reqs) (fun r q _ => r = true ->
    count KFd q = 2 + n_local args /\
    count KMem q = 1 + (if existsb is_target args then 1 else 0) /\
    count KCipher q = n_lost args /\
    count KCurl q = 0 /\ count KZstd q = 0 /\ count KStack q = 0).
Proof.
  intros Hodd. unfold run. own_step; [| own_go; discriminate].
  own_step. own_step; cbn [negb]; [| own_go; discriminate].
  eapply own_call with (p0 := []) (x := [mkObj i KFd []]) (b' := 1);
    [apply target_make_own | apply Permutation_refl | cbn; lia |].
  cbn beta. intros [t |] q g H; [| own_go; discriminate].
  destruct H as [-> Ht].
  eapply own_call with (p0 := []) (b' := 0) (x := tobjs t ++ [mkObj i KFd []]);
    [apply chain_new_own | apply Permutation_refl | rewrite fds_app, fds_tobjs; cbn; lia |].
  cbn beta. intros [c |] q g2 H; [| own_go; discriminate].
  destruct H as [Hq Hc].
  eapply own_call with (p0 := tobjs t ++ cobjs c) (x := [mkObj i KFd []]) (b' := 2 + n_local args).
  - pose proof (append_args_own args t c 0 (tobjs t ++ cobjs c) Hodd) as HA.
    rewrite Hc in HA. apply HA.
    exists [], []. rewrite Hc. split; [constructor |]. split; [reflexivity |].
    cbn [cips map app]. rewrite ?app_nil_r. apply Permutation_refl.
  - etransitivity; [apply Permutation_app_tail, Hq |].
    rewrite app_assoc. apply Permutation_app_tail, Permutation_app_comm.
  - cbn. lia.
  - cbn beta. intros [[t' c'] |] q2 g3 H; [| own_go; discriminate].
    destruct H as ((qs & ids & Hs & Hn & Hp) & Hl & Hi).
    cbn [locals filter length Nat.add] in Hl.
    eapply own_call with (p0 := mkObj i KFd [] :: tobjs t' ++ qs) (x := cobjs c' ++ cips ids) (b' := 2 + locals (c_stores c'));
      [apply entries_own, Hs | | rewrite fds_app, fds_cips; cbn; lia |].
    { etransitivity; [apply Permutation_app_tail, Hp |].
      etransitivity; [symmetry; apply Permutation_cons_append |]. cbn [app]. apply perm_skip.
      rewrite <- app_assoc. apply Permutation_app_head.
      rewrite !app_assoc. apply Permutation_app_tail, Permutation_app_comm. }
    cbn beta. intros [ok l'] q3 g4 (q' & -> & Hs' & El'). cbn [fst snd] in *.
    destruct ok; cbn [negb]; [| own_go; discriminate].
    unfold chain_free. cbn [c_sc c_arr c_stores c_space].
    apply own_assoc.
    eapply own_perm with (p' := mkObj (c_arr c') KMem [] :: mkObj (c_sc c') KMem [] :: mkObj i KFd [] :: tobjs t' ++ q' ++ cips ids).
    { cbn [app cobjs].
      change (mkObj (c_arr c') KMem [] :: mkObj (c_sc c') KMem [] :: mkObj i KFd [] :: tobjs t' ++ q' ++ cips ids)
        with ([mkObj (c_arr c') KMem []; mkObj (c_sc c') KMem []] ++ (mkObj i KFd [] :: tobjs t' ++ q' ++ cips ids)).
      change (mkObj i KFd [] :: (tobjs t' ++ q') ++ mkObj (c_sc c') KMem [] :: mkObj (c_arr c') KMem [] :: cips ids)
        with ((mkObj i KFd [] :: tobjs t' ++ q') ++ [mkObj (c_sc c') KMem []; mkObj (c_arr c') KMem []] ++ cips ids).
      etransitivity; [rewrite app_assoc; apply Permutation_app_tail, Permutation_app_comm |].
      etransitivity; [rewrite <- app_assoc; apply Permutation_app_tail, perm_swap |].
      cbn [app]. rewrite <- app_assoc. apply Permutation_refl. }
    eapply own_touch; [apply Permutation_refl |].
    apply own_assoc.
    eapply own_call with (p0 := q') (b' := locals l')
      (x := mkObj (c_arr c') KMem [] :: mkObj (c_sc c') KMem [] :: mkObj i KFd [] :: tobjs t' ++ cips ids);
      [apply (stores_free_own l' q' Hs') | | rewrite !fds_cons, fds_app, fds_tobjs, fds_cips; cbn; lia |].
    { change (Permutation ((mkObj (c_arr c') KMem [] :: mkObj (c_sc c') KMem [] :: mkObj i KFd [] :: tobjs t') ++ q' ++ cips ids)
        (q' ++ (mkObj (c_arr c') KMem [] :: mkObj (c_sc c') KMem [] :: mkObj i KFd [] :: tobjs t') ++ cips ids)).
      rewrite !app_assoc. apply Permutation_app_tail, Permutation_app_comm. }
    cbn beta. intros _ q4 g5 (ids' & -> & Ei').
    eapply own_perm; [apply Permutation_app_comm |]. cbn [app].
    apply own_assoc. eapply own_release; [apply Permutation_refl |].
    eapply own_release; [apply Permutation_refl |].
    own_go. intros _.
    assert (En : 0 + n_lost args = length ids) by lia.
    assert (Et : forall k, count k (tobjs t') =
      (if rkind_eqb KFd k then 1 else 0) + (if rkind_eqb KMem k then 1 + (if existsb is_target args then 1 else 0) else 0)).
    { intros k. unfold tobjs, opt. destruct (t_idx t') eqn:E.
      - destruct (existsb is_target args) eqn:Ea; [destruct k; reflexivity |].
        exfalso. assert (C : Some n = None) by (apply Hi; auto). discriminate.
      - destruct (proj1 Hi eq_refl) as [_ Ea]. rewrite Ea. destruct k; reflexivity. }
    assert (Ek : forall k, count k ((mkObj i KFd [] :: tobjs t' ++ cips ids) ++ fdobjs ids') =
      (if rkind_eqb KFd k then 1 else 0) + count k (tobjs t') +
      (if rkind_eqb KCipher k then length ids else 0) + (if rkind_eqb KFd k then length ids' else 0)).
    { intros k. change (mkObj i KFd [] :: tobjs t' ++ cips ids) with ([mkObj i KFd []] ++ tobjs t' ++ cips ids).
      rewrite !count_app, count_fdobjs, count_cips. unfold count at 1. destruct k; cbn; lia. }
    rewrite app_comm_cons in *. rewrite !Ek, !Et. cbn [rkind_eqb]. repeat split; lia.
Qed.
