(** What the functions of Res.v own: the stores. *)
From Verif Require Import Base Utils Encrypt Res SpecRes PfRes PfRes2.
From Coq Require Import Permutation Lia Arith.
Local Open Scope nat_scope.
Local Open Scope res_scope.

(** *** HTTP stores *)
Arguments store_name : simpl never.
Definition opt (k : rkind) (o : option nat) : list robj :=
  match o with Some i => [mkObj i k []] | None => [] end.
Definition http_objs (a : bytes) (s : rhttp) (d : bytes) : list robj :=
  mkObj (h_hs s) KMem d :: mkObj (h_name s) KMem (store_name a) :: mkObj (h_base s) KMem a :: mkObj (h_url s) KMem [] ::
  mkObj (h_curl s) KCurl [] :: mkObj (h_zstd s) KZstd [] :: opt KMem (h_dec s) ++ opt KCipher (h_cipher s).
Definition cips (l : list nat) : list robj := map (fun i => mkObj i KCipher []) l.

Lemma fds_cips l : fds (cips l) = 0.
Proof. induction l; cbn; auto. Qed.

(** Heap memory that was given back holds nothing. *)
Definition heap_zero (o : robj) : Prop := o_kind o = KMem -> all_zero (o_data o).

(** ... or what is left of a key file. *)
Definition clean (ps : list rparam) (o : robj) : Prop :=
  heap_zero o \/ exists c, In (PEncrypt (SFile c)) ps /\ text_wiped c (chomp (cstr c)) (o_data o).
Lemma clean_not_mem ps i k d : k <> KMem -> clean ps (mkObj i k d).
Proof. intros H. left. intros E. contradiction. Qed.
Lemma clean_empty ps i k : clean ps (mkObj i k []).
Proof. left. intros _. constructor. Qed.
Lemma clean_handle ps o : handle o -> clean ps o.
Proof. intros [H _]. left. intros E. contradiction. Qed.
Lemma clean_text ps s o : In (PEncrypt s) ps -> text_ok s true o -> clean ps o.
Proof.
  intros H [Ho | Ho]; [apply clean_handle, Ho |]. destruct s as [t | c |]; try contradiction.
  destruct Ho as (i & [(d & -> & Hd) | [E _]]); [| discriminate]. right. exists c. auto.
Qed.
Lemma clean_cons p ps o : clean ps o -> clean (p :: ps) o.
Proof. intros [H | (c & H & H')]; [now left | right; exists c; split; [now right | exact H']]. Qed.

Lemma params_own hs ps : forall cur d, length d <= 64 ->
  own 1 [mkObj hs KMem d] (handle_params hs cur ps) (fun r q g =>
    exists d' ids, q = mkObj hs KMem d' :: cips ids /\ length d' <= 64 /\ length ids <= encrypts ps /\
      (fst r = true -> length ids = encrypts ps /\
                       snd r = match ids with [] => cur | _ => Some (last ids 0) end) /\
      (ids = [] -> d' = d) /\ (fst r = true -> Forall (clean ps) g)).
Proof.
  induction ps as [| [s |] ps IH]; intros cur d L; cbn [handle_params].
  - own_go. exists d, []. repeat split; auto.
  - own_step.
    eapply own_call; [apply (keyspec_own i s key_buf_new eq_refl) | apply Permutation_refl | cbn; lia |].
    cbn beta. intros ok q g (k & -> & Lk & _ & Hk). cbn [app].
    destruct ok; cbn [negb].
    2:{ own_go. exists d, []. repeat split; auto; cbn; try lia; discriminate. }
    unfold enc_init. own_step. own_step.
    + own_go. cbn [app].
      eapply own_conseq with (p := [mkObj hs KMem k] ++ [mkObj i0 KCipher []]);
        [eapply own_frame; [apply (IH (Some i0) k); lia | apply Permutation_refl | cbn; apply Nat.le_refl]
        | apply Nat.le_refl | cbn [app]; perm_all |].
      cbn beta. intros r q g' (q0 & (d' & ids & -> & L' & Hi & Hr & _ & Hg) & ->).
      exists (mkObj hs KMem d' :: cips (i0 :: ids)). split.
      * exists d', (i0 :: ids). split; [reflexivity |]. split; [exact L' |].
        unfold encrypts in *; cbn [filter length]. split; [lia |].
        split; [| split; [discriminate |]].
        -- intros Et. destruct (Hr Et) as [Hl Hs]. rewrite Hs. split; [lia |]. destruct ids; reflexivity.
        -- intros Et. repeat (apply Forall_app; split).
           ++ eapply Forall_impl; [apply clean_cons | exact (Hg Et)].
           ++ each. apply clean_not_mem; discriminate.
           ++ eapply Forall_impl; [| exact Hk]. intros o. apply clean_text. now left.
      * cbn. apply perm_skip. symmetry. apply Permutation_cons_append.
    + own_go. exists d, []. repeat split; auto; cbn; try lia; discriminate.
  - own_go. exists d, []. repeat split; auto; cbn; try lia; discriminate.
Qed.

Lemma setopts_own curl n : forall b,
  own b [mkObj curl KCurl []] (setopts curl n) (fun _ q g => q = [mkObj curl KCurl []] /\ g = []).
Proof.
  induction n as [| n IH]; intros b; cbn [setopts]; own_go; try (split; reflexivity).
  eapply own_weaken; [apply IH |]. cbn. intros _ q g [-> ->]. split; reflexivity.
Qed.

Lemma cips_last ids : ids <> [] ->
  Permutation (cips ids) (mkObj (last ids 0) KCipher [] :: cips (removelast ids)).
Proof.
  intros H. rewrite (app_removelast_last 0 H) at 1. unfold cips. rewrite map_app. cbn.
  symmetry. apply Permutation_cons_append.
Qed.
Lemma length_removelast (l : list nat) : length (removelast l) = length l - 1.
Proof.
  destruct l as [| a l]; [reflexivity |].
  assert (H : a :: l <> []) by discriminate.
  pose proof (app_removelast_last 0 H) as E. apply (f_equal (@length nat)) in E.
  rewrite app_length in E. cbn [length] in E |- *. lia.
Qed.

Lemma http_new_own a ps :
  own 1 [] (http_new a ps) (fun r q g =>
    match r with
    | None => exists ids, q = cips ids /\ length ids <= encrypts ps
    | Some s => exists d ids, q = http_objs a s d ++ cips ids /\ length d <= 64 /\ h_dec s = None /\
                  length ids = encrypts ps - 1 /\ (h_cipher s = None <-> encrypts ps = 0) /\ (h_cipher s = None -> d = []) /\
                  Forall (clean ps) g
    end).
Proof.
  unfold http_new. own_go; try (exists []; split; [reflexivity | cbn; lia]).
  eapply own_call with (p0 := [mkObj i KMem []]) (x := [mkObj i0 KMem []; mkObj i1 KMem a]);
    [apply params_own; cbn; lia | cbn [app]; perm_all | cbn; lia |].
  cbn beta. intros [ok c] q g (d & ids & -> & L & Hi & Hr & Hz & Hg). cbn [app fst snd] in *.
  (* the objects besides the contexts, and the contexts *)
  assert (Hf : forall A (m : RM A) b p (Q : A -> list robj -> list robj -> Prop) R,
    own b p m Q -> b <= 1 ->
    (forall a q' g', Q a q' g' -> exists q'', R a q'' g' /\ Permutation (q' ++ cips ids) q'') ->
    own 1 (p ++ cips ids) m R).
  { intros A m b p Q R Hm Hb HQ.
    eapply own_conseq;
      [eapply own_frame with (b' := 1); [exact Hm | apply Permutation_refl | rewrite fds_cips; lia]
      | apply Nat.le_refl | apply Permutation_refl |].
    cbn. intros x q g' (q0 & Hq & ->). apply HQ, Hq. }
  apply own_perm with (p' := [mkObj i KMem d; mkObj i0 KMem []; mkObj i1 KMem a] ++ cips ids).
  { cbn [app]. apply perm_skip. apply (Permutation_app_comm (cips ids) [_; _]). }
  destruct ok; cbn [negb].
  2:{ eapply Hf with (b := 1) (Q := fun r q _ => r = None /\ q = []).
      - own_go. auto.
      - lia.
      - intros x q g' [-> ->]. exists (cips ids). split; [| apply Permutation_refl]. exists ids; auto. }
  destruct (Hr eq_refl) as [Hl Hs]. clear Hr. specialize (Hg eq_refl).
  eapply Hf with (b := 1) (Q := fun r q g' => match r with
     | None => q = []
     | Some s => q = http_objs a (mkHttp (h_hs s) (h_name s) (h_base s) (h_url s) (h_curl s) (h_zstd s) None None) d /\
                 h_dec s = None /\ h_cipher s = c /\ g' = [] end).
  - own_go; try reflexivity.
    eapply own_call with (p0 := [mkObj i3 KCurl []]);
      [apply (setopts_own i3 5 0) | cbn [app]; perm_front | cbn; lia |].
    cbn beta. intros ok q g' [-> ->]. cbn [app].
    destruct ok; own_run; try (own_end; reflexivity).
    eapply own_ret; [repeat split |].
    unfold http_objs; cbn. perm_all.
  - lia.
  - intros [s |] q g'.
    + intros (-> & Hd & Hc & ->). destruct s as [hs na bs' u cu z de ci]; cbn in *. subst de ci.
      destruct ids as [| j ids].
      * cbn in Hs. subst c. exists (http_objs a (mkHttp hs na bs' u cu z None None) d ++ cips []).
        split; [| unfold http_objs; cbn; apply Permutation_refl].
        exists d, []. cbn in Hl. split; [reflexivity |]. cbn. repeat split; auto; lia.
      * cbn [length] in Hl. exists (http_objs a (mkHttp hs na bs' u cu z None c) d ++ cips (removelast (j :: ids))).
        split.
        -- exists d, (removelast (j :: ids)). rewrite length_removelast. cbn [length h_cipher h_dec app].
           subst c. repeat split; auto; try lia; discriminate.
        -- subst c. unfold http_objs; cbn [opt app h_hs h_name h_base h_url h_curl h_zstd h_dec h_cipher].
           do 6 apply perm_skip. apply cips_last. discriminate.
    + intros ->. exists (cips ids). split; [exists ids; auto | apply Permutation_refl].
Qed.

Lemma absorb_own a s d :
  own 0 (http_objs a s d) (absorb s) (fun r q g => q = http_objs a (snd r) d /\
     h_hs (snd r) = h_hs s /\ h_cipher (snd r) = h_cipher s /\ g = []).
Proof.
  destruct s as [hs na bs' u cu z de ci]. unfold absorb, http_objs; cbn.
  destruct de as [b |], ci as [c |]; cbn; own_run.
  all: (eapply own_ret; [cbn; repeat split |]); cbn; perm_all.
Qed.

Lemma absorbs_own a d n : forall s,
  own 0 (http_objs a s d) (absorbs n s) (fun s' q g => q = http_objs a s' d /\
     h_hs s' = h_hs s /\ h_cipher s' = h_cipher s /\ g = []).
Proof.
  induction n as [| n IH]; intros s; cbn [absorbs].
  - own_go. auto.
  - eapply own_bind; [apply absorb_own |]. cbn beta. intros [ok s'] q g (-> & E1 & E2 & ->).
    cbn [fst snd] in *. destruct ok.
    + eapply own_weaken; [apply IH |]. cbn. intros x q g' (-> & E3 & E4 & ->). repeat split; congruence.
    + own_go. auto.
Qed.

Lemma http_get_own a s d nonce segs :
  length d <= 64 ->
  own 0 (http_objs a s d) (http_get s nonce segs) (fun r q g => q = http_objs a (snd r) d /\
     h_cipher (snd r) = h_cipher s /\ Forall heap_zero g).
Proof.
  intros L.
  assert (Htail : own 0 (http_objs a s d)
    (ok <~ ask ;; if negb ok then rret (false, s) else
     s <~ absorbs segs s ;; touch (h_curl s) KCurl ;;~ ok <~ ask ;; rret (ok, s))
    (fun r q g => q = http_objs a (snd r) d /\ h_cipher (snd r) = h_cipher s /\ Forall heap_zero g)).
  { own_go; try (repeat split; constructor).
    eapply own_bind; [apply absorbs_own |]. cbn beta. intros s' q g (-> & E1 & E2 & ->).
    unfold http_objs at 1. own_step. own_go; repeat split; auto; constructor. }
  unfold http_get. unfold http_objs at 1. own_run; try (own_end; repeat split; constructor).
  change (own 0 (http_objs a s d)
    (ok <~ match h_cipher s with Some ci => enc_restart ci (h_hs s) KMem nonce | None => rret true end ;;
     if negb ok then rret (false, s) else
     ok <~ ask ;; if negb ok then rret (false, s) else
     s <~ absorbs segs s ;; touch (h_curl s) KCurl ;;~ ok <~ ask ;; rret (ok, s))
    (fun r q g => q = http_objs a (snd r) d /\ h_cipher (snd r) = h_cipher s /\ Forall heap_zero g)).
  destruct (h_cipher s) as [ci |] eqn:Ec.
  - eapply own_call with (p0 := [mkObj (h_hs s) KMem d; mkObj ci KCipher []])
      (x := mkObj (h_name s) KMem (store_name a) :: mkObj (h_base s) KMem a :: mkObj (h_url s) KMem [] ::
            mkObj (h_curl s) KCurl [] :: mkObj (h_zstd s) KZstd [] :: opt KMem (h_dec s));
      [apply restart_own; [now right | exact L] | | unfold opt; destruct (h_dec s); cbn; lia |].
    { unfold http_objs. rewrite Ec. cbn [opt app]. apply perm_skip.
      change (mkObj (h_name s) KMem (store_name a) :: mkObj (h_base s) KMem a :: mkObj (h_url s) KMem [] ::
            mkObj (h_curl s) KCurl [] :: mkObj (h_zstd s) KZstd [] :: opt KMem (h_dec s) ++ [mkObj ci KCipher []])
        with ((mkObj (h_name s) KMem (store_name a) :: mkObj (h_base s) KMem a :: mkObj (h_url s) KMem [] ::
            mkObj (h_curl s) KCurl [] :: mkObj (h_zstd s) KZstd [] :: opt KMem (h_dec s)) ++ [mkObj ci KCipher []]).
      symmetry. apply Permutation_cons_append. }
    cbn beta. intros ok q g (-> & Hg). cbn [app].
    assert (Hg' : Forall heap_zero g)
      by (eapply Forall_impl; [| exact Hg]; intros o [Ek _] E; rewrite Ek in E; discriminate).
    apply own_perm with (p' := http_objs a s d).
    { unfold http_objs. rewrite Ec. cbn [opt app]. apply perm_skip.
      etransitivity; [apply Permutation_cons_append |]. apply Permutation_refl. }
    destruct ok; cbn [negb].
    + eapply own_weaken; [exact Htail |]. cbn beta. intros r q g' (-> & E & Hr).
      split; [reflexivity |]. split; [exact E |]. apply Forall_app; split; assumption.
    + own_go. auto.
  - own_step. eapply own_weaken; [exact Htail |]. auto.
Qed.

Lemma http_gets_own a d l : length d <= 64 -> forall s,
  own 0 (http_objs a s d) (http_gets s l) (fun s' q g => q = http_objs a s' d /\ h_cipher s' = h_cipher s /\ Forall heap_zero g).
Proof.
  intros L. induction l as [| [nonce segs] l IH]; intros s; cbn [http_gets].
  - own_go. auto.
  - eapply own_bind; [apply http_get_own, L |]. cbn beta. intros r q g (-> & E & Hg).
    eapply own_weaken; [apply IH |]. cbn beta. intros s' q g' (-> & E' & Hg').
    split; [reflexivity |]. split; [congruence |]. apply Forall_app; split; assumption.
Qed.

(** ... or a part of the argument of the store. *)
Definition given_back (a : bytes) (o : robj) : Prop := heap_zero o \/ exists k, o_data o = firstn k a.
Lemma http_free_own a s d :
  (h_cipher s = None -> d = []) ->
  own 0 (http_objs a s d) (http_free s) (fun _ q g => q = [] /\ Forall (given_back a) g).
Proof.
  intros Hd. destruct s as [hs na bs' u cu z de ci]. unfold http_free, http_objs; cbn [h_cipher h_hs h_name h_base h_url h_curl h_zstd h_dec] in *.
  assert (HM : forall i, given_back a (mkObj i KMem [])) by (intros i; left; intros _; constructor).
  assert (HO : forall i k d', k <> KMem -> given_back a (mkObj i k d')) by (intros i k d' Hk; left; intros E; contradiction).
  assert (HA : forall i, given_back a (mkObj i KMem a)) by (intros i; right; exists (length a); cbn [o_data]; now rewrite firstn_all).
  assert (HN : forall i, given_back a (mkObj i KMem (store_name a))) by (intros i; right; now exists 127).
  generalize dependent (store_name a). intros nm HN.
  destruct de as [b |], ci as [c |]; cbn [opt app]; own_run.
  all: try (rewrite (Hd eq_refl); own_go; split; [reflexivity |]; cbn [app]; each; auto; apply HO; discriminate).
  all: eapply own_call with (p0 := [mkObj hs KMem d; mkObj c KCipher []]) (x := [mkObj na KMem nm]);
      [apply close_own; now right | cbn [app]; perm_all | cbn; lia |];
    cbn beta; intros _ q g ((d' & -> & Hz) & Hg); cbn [app]; own_go;
    (split; [reflexivity |]); cbn [app];
    (apply Forall_cons; [left; intros _; exact Hz |]); (apply Forall_cons; [apply HN |]); repeat (apply Forall_app; split).
  all: try (eapply Forall_impl; [| exact Hg]; intros o [Ho _]; left; intros E; contradiction).
  all: each; auto; apply HO; discriminate.
Qed.

Lemma http_life_own a ps l :
  own 1 [] (http_life a ps l) (fun r q g =>
    exists ids, q = cips ids /\
      length ids <= (if r then encrypts ps - 1 else encrypts ps) /\
      (r = true -> length ids = encrypts ps - 1 /\ Forall (fun o => clean ps o \/ exists k, o_data o = firstn k a) g)).
Proof.
  assert (Hc : forall g, Forall (clean ps) g -> Forall (fun o => clean ps o \/ exists k, o_data o = firstn k a) g).
  { intros g H. eapply Forall_impl; [| exact H]. intros o Ho; left; exact Ho. }
  assert (Hz' : forall g, Forall heap_zero g -> Forall (fun o => clean ps o \/ exists k, o_data o = firstn k a) g).
  { intros g H. eapply Forall_impl; [| exact H]. intros o Ho; left; left; exact Ho. }
  assert (Hb : forall g, Forall (given_back a) g -> Forall (fun o => clean ps o \/ exists k, o_data o = firstn k a) g).
  { intros g H. eapply Forall_impl; [| exact H]. intros o [Ho | Ho]; [left; left; exact Ho | right; exact Ho]. }
  unfold http_life. eapply own_bind; [apply http_new_own |]. cbn beta.
  intros [s |] q g H.
  - destruct H as (d & ids & -> & L & _ & Hi & _ & Hz & Hg).
    eapply own_call with (b' := 0); [apply (http_gets_own a d l L s) | apply Permutation_refl | rewrite fds_cips; lia |].
    cbn beta. intros s' q g' (-> & E & Hg').
    eapply own_call with (b' := 0); [apply (http_free_own a s' d); rewrite E; exact Hz
      | apply Permutation_refl | rewrite fds_cips; lia |].
    cbn beta. intros _ q g2 (-> & Hg2). cbn [app]. own_go. exists ids. split; [reflexivity |]. split; [lia |].
    intros _. split; [exact Hi |]. cbn [app]. repeat (apply Forall_app; split); auto.
  - destruct H as (ids & -> & Hi). own_go. exists ids. repeat split; auto; discriminate.
Qed.

(** *** Local stores *)
Definition local_objs (s : rlocal) (i : nat) : list robj :=
  [mkObj (l_ls s) KMem []; mkObj (l_fd s) KFd []; mkObj i KMem []].
Definition local_base (s : rlocal) : list robj := [mkObj (l_ls s) KMem []; mkObj (l_fd s) KFd []].
(** The index is there; or there is none, or only a dangling pointer. *)
Definition local_live (s : rlocal) (q : list robj) : Prop := exists i, l_idx s = Some i /\ q = local_objs s i.
Definition local_dead (s : rlocal) (q : list robj) : Prop :=
  q = local_base s /\ (l_idx s = None \/ l_special s = true).
Definition same_local (s s' : rlocal) : Prop :=
  l_ls s' = l_ls s /\ l_fd s' = l_fd s /\ l_special s' = l_special s.

Lemma scan_own s :
  own 1 (local_base s) (scan s) (fun r q _ => same_local s (snd r) /\
    (if fst r then local_live (snd r) q /\ l_special s = false
     else local_live (snd r) q \/ (q = local_base s /\ (l_idx (snd r) = None \/ snd r = s /\ l_special s = true)))).
Proof.
  destruct s as [ls fd ix sp]. unfold scan, local_base, local_live, same_local, with_idx; cbn.
  destruct sp; own_run.
  - own_end. cbn. repeat split; auto.
  - eapply own_ret; [cbn; split; [repeat split |]; split; [eexists; split; [reflexivity |]; unfold local_objs; reflexivity | reflexivity] |].
    cbn. perm_all.
  - eapply own_ret; [cbn; split; [repeat split |]; left; eexists; split; [reflexivity |]; unfold local_objs; reflexivity |].
    cbn. perm_all.
  - own_end. cbn. repeat split; auto.
Qed.

Lemma sideload_own s :
  l_idx s = None ->
  own 2 (local_base s) (sideload s) (fun r q _ => same_local s (snd r) /\
    (if fst r then local_live (snd r) q else q = local_base s)).
Proof.
  intros _. destruct s as [ls fd ix sp]. unfold sideload, local_base, local_live, same_local, with_idx; cbn.
  own_run.
  all: try (own_end; cbn; repeat split; auto; fail).
  eapply own_ret; [cbn; split; [repeat split |]; eexists; split; [reflexivity |]; unfold local_objs; reflexivity |].
  cbn. perm_all.
Qed.

Lemma local_new_own sp ix :
  own 2 [] (local_new sp ix) (fun r q _ =>
    match r with
    | None => q = [] \/ exists fd, q = [mkObj fd KFd []] \/ exists i, q = [mkObj fd KFd []; mkObj i KMem []]
    | Some s => local_live s q /\ l_special s = sp /\ (sp = true -> ix = true)
    end).
Proof.
  unfold local_new. own_run; try (own_end; auto; fail).
  rename i into ls, i0 into fd. set (s := mkLocal ls fd None sp).
  apply own_perm with (p' := local_base s); [unfold local_base, s; cbn; perm_all |].
  assert (Hscan : forall s1, same_local s s1 ->
    own 2 (local_base s) (r <~ scan s1 ;; if fst r then rret (Some (snd r)) else release ls KMem ;;~ rret None)
      (fun r q _ => match r with
        | None => q = [] \/ exists fd, q = [mkObj fd KFd []] \/ exists i, q = [mkObj fd KFd []; mkObj i KMem []]
        | Some s => local_live s q /\ l_special s = sp /\ (sp = true -> ix = true) end)).
  { intros s1 (E1 & E2 & E3).
    eapply own_call with (p0 := local_base s1) (b' := 1) (x := []);
      [apply scan_own | unfold local_base; rewrite E1, E2; apply Permutation_refl | cbn; lia |].
    cbn beta. intros [ok s2] q g ((F1 & F2 & F3) & H). cbn [fst snd] in *. rewrite app_nil_r.
    destruct ok.
    - destruct H as [H Hs]. own_go. split; [exact H |]. unfold s in *; cbn in *. split; [congruence |].
      intros Hsp; congruence.
    - destruct H as [(i & Ei & ->) | [-> _]].
      + unfold local_objs. rewrite F1, E1. unfold s; cbn [l_ls]. own_go.
        right. rewrite F2, E2. exists fd. right. exists i. reflexivity.
      + unfold local_base. rewrite E1. unfold s; cbn [l_ls]. own_go.
        right. rewrite E2. exists fd. left. reflexivity. }
  destruct ix.
  - eapply own_bind; [apply (sideload_own s eq_refl) |]. cbn beta. intros [ok s1] q g (Hs & H). cbn [fst snd] in *.
    destruct ok.
    + own_go. split; [exact H |]. split; [apply Hs | auto].
    + subst q. eapply own_weaken; [apply Hscan, Hs |]. auto.
  - own_step. eapply own_weaken; [apply Hscan; repeat split |]. auto.
Qed.

Lemma try_own fresh s i b :
  l_idx s = Some i ->
  own b (local_objs s i) (local_try fresh s) (fun _ q _ => q = local_objs s i).
Proof.
  intros E. unfold local_try. rewrite E. unfold local_objs. destruct fresh; own_go; reflexivity.
Qed.

(** After an answer that keeps the store active its index is there. *)
Lemma local_get_own s q0 :
  local_live s q0 ->
  own 1 q0 (local_get s) (fun r q _ => same_local s (snd r) /\
    (if fst r then local_live (snd r) q else local_live (snd r) q \/ local_dead (snd r) q)).
Proof.
  intros (i & E & ->). unfold local_get.
  eapply own_bind; [apply (try_own false s i 1 E) |]. cbn beta. intros [ok |] q g ->.
  - own_go. split; [repeat split |]. destruct ok; [| left]; exists i; auto.
  - rewrite E. cbn [idx_cleanup]. unfold local_objs. own_step.
    eapply own_bind; [apply scan_own |]. cbn beta. intros [ok s1] q g' (Hs & H). cbn [fst snd negb] in *.
    destruct ok; cbn [negb].
    + destruct H as [(j & Ej & ->) _].
      eapply own_bind; [apply (try_own true s1 j 1 Ej) |]. cbn beta. intros r q g2 ->.
      own_go. split; [exact Hs |].
      assert (HL : local_live s1 (local_objs s1 j)) by (exists j; auto).
      destruct r as [[] |]; cbn [fst snd]; auto.
    + own_go. split; [exact Hs |]. destruct H as [H | [-> H]]; [left; exact H | right].
      destruct Hs as (F1 & F2 & F3). cbn [snd]. split; [unfold local_base; now rewrite F1, F2 |].
      destruct H as [H | [-> H]]; auto.
Qed.

Lemma local_free_own s q0 :
  local_live s q0 \/ (q0 = local_base s /\ l_idx s = None) ->
  own 1 q0 (local_free s) (fun _ q _ => q = [mkObj (l_fd s) KFd []]).
Proof.
  intros [(i & E & ->) | [-> E]]; unfold local_free; rewrite E; cbn [idx_cleanup];
    unfold local_objs, local_base; own_go; reflexivity.
Qed.

Lemma local_gets_own n : forall s q0,
  local_live s q0 ->
  own 1 q0 (local_gets s n) (fun s' q _ => same_local s s' /\ (local_live s' q \/ local_dead s' q)).
Proof.
  induction n as [| n IH]; intros s q0 H; cbn [local_gets].
  - own_go. split; [repeat split | auto].
  - eapply own_bind; [apply local_get_own, H |]. cbn beta. intros [ok s1] q g (Hs & Hq). cbn [fst snd] in *.
    destruct ok.
    + eapply own_weaken; [apply IH, Hq |]. cbn. intros s2 q2 g2 (Hs2 & H2). split; [| exact H2].
      unfold same_local in *. destruct Hs as (? & ? & ?), Hs2 as (? & ? & ?). repeat split; congruence.
    + own_go. auto.
Qed.

Lemma local_life_own sp ix n :
  sp && ix = false ->
  own 2 [] (local_life sp ix n) (fun r q _ =>
    if r then exists fd, q = [mkObj fd KFd []]
    else q = [] \/ exists fd, q = [mkObj fd KFd []] \/ exists i, q = [mkObj fd KFd []; mkObj i KMem []]).
Proof.
  intros Hodd. unfold local_life. eapply own_bind; [apply local_new_own |]. cbn beta. intros [s |] q g H.
  - destruct H as (H & Es & Hi).
    eapply own_call with (b' := 1) (x := []);
      [apply (local_gets_own n s q H) | now rewrite app_nil_r | cbn; lia |].
    cbn beta. intros s' q' g' (Hs & H'). rewrite app_nil_r.
    destruct sp; [rewrite (Hi eq_refl) in Hodd; discriminate |].
    eapply own_call with (b' := 1) (x := []);
      [apply (local_free_own s' q') | now rewrite app_nil_r | cbn; lia |].
    { destruct H' as [H' | [H' [E | E]]]; auto. destruct Hs as (_ & _ & F). congruence. }
    cbn beta. intros _ q2 g2 ->. rewrite app_nil_r. own_go. eauto.
  - own_go. exact H.
Qed.

(** *** The kernel hash *)
Lemma kcapi_own long n : own 2 [] (kcapi long n) (fun _ q _ => q = []).
Proof.
  assert (Hs : forall n k, own 1 (opt KFd k) (shas n k) (fun k' q _ => q = opt KFd k')).
  { clear. induction n as [| n IH]; intros k; cbn [shas].
    - own_go. reflexivity.
    - destruct k as [fd |]; cbn [opt kcapi_deinit]; own_run; try (eapply own_weaken; [apply (IH (Some fd)) |]; auto; fail);
        (eapply own_weaken; [apply (IH None) |]; auto). }
  assert (Hd : forall k b, own b (opt KFd k) (kcapi_deinit k) (fun k' q _ => k' = None /\ q = [])).
  { intros [fd |] b; cbn; own_go; auto. }
  assert (Hi : own 2 [] (kcapi_init long) (fun k q _ => q = opt KFd k)).
  { unfold kcapi_init. destruct long; own_go; reflexivity. }
  unfold kcapi. eapply own_bind; [exact Hi |]. cbn beta. intros k q g ->.
  eapply own_call with (b' := 1) (x := []); [apply (Hs n k) | now rewrite app_nil_r | cbn; lia |].
  cbn beta. intros k' q g' ->. rewrite app_nil_r.
  eapply own_bind; [apply (Hd k' 2) |]. cbn beta. intros k2 q g2 [-> ->].
  cbn. own_go. reflexivity.
Qed.
