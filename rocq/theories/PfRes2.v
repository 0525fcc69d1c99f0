(** What the functions of Res.v own: key handling and csn-tool. *)
From Verif Require Import Base Lib SpecBasic Utils Encrypt PfUtils PfBasic PfKeyspec Res SpecRes PfRes.
From Coq Require Import Permutation Lia Arith.
Local Open Scope nat_scope.
Local Open Scope res_scope.

(** *** Contents *)
Lemma zeroed_all n d : length d <= n -> all_zero (zeroed n d).
Proof.
  intros H. unfold zeroed, all_zero. rewrite skipn_all2 by exact H. rewrite app_nil_r.
  apply Forall_forall. intros x Hx. apply repeat_spec in Hx. exact Hx.
Qed.
Lemma cstr_app0 c : cstr (c ++ [0%N]) = cstr c.
Proof. induction c as [| x c IH]; cbn; [reflexivity |]. destruct (x =? 0)%N; [reflexivity | now rewrite IH]. Qed.
Lemma length_cstr c : length (cstr c) <= length c.
Proof. induction c as [| x c IH]; cbn; [lia |]. destruct (x =? 0)%N; cbn; lia. Qed.
Lemma length_chomp s : length (chomp s) <= length s.
Proof. unfold chomp. destruct (chomp_loop s 0 false None); [rewrite firstn_length |]; lia. Qed.
Lemma length_decode d s : length d = 32 -> length (snd (decode_key_buf d s)) = 32.
Proof.
  intros L. unfold decode_key_buf.
  destruct (Nat.eqb (length s) 64) eqn:E; cbn [negb snd]; [| exact L].
  apply Nat.eqb_eq in E. pose proof (length_parse_hex_written s None) as LW. rewrite E in LW.
  assert (LO : length (overlay (parse_hex_written s None) d) = 32) by (rewrite length_overlay; lia).
  destruct (parse_hex s); cbn [snd]; [exact LO |].
  rewrite overlay_all; [apply repeat_length | rewrite LO, repeat_length; reflexivity].
Qed.
Lemma wiped_text c :
  text_wiped c (chomp (cstr c)) (zeroed (length (chomp (cstr c))) (chomped (c ++ [0%N]))).
Proof.
  unfold text_wiped, chomped, zeroed. rewrite cstr_app0. set (n := length (chomp (cstr c))).
  assert (Hn : n <= length c).
  { unfold n. pose proof (length_chomp (cstr c)). pose proof (length_cstr c). lia. }
  assert (Hl : length (firstn n (c ++ [0%N])) = n) by (rewrite firstn_length, app_length; cbn; lia).
  rewrite app_length, Hl. rewrite Nat.min_l by (cbn; lia).
  rewrite skipn_app, Hl, Nat.sub_diag, skipn_all2 by lia. cbn [skipn app].
  change (S n) with (1 + n). rewrite (Nat.add_comm 1 n), repeat_app, <- app_assoc. reflexivity.
Qed.

(** Objects given back that are of no interest: they hold nothing. *)
Definition handle (o : robj) : Prop := o_kind o <> KMem /\ o_kind o <> KStack.
Ltac each := repeat apply Forall_cons; try apply Forall_nil.
Ltac is_handle := split; cbn; discriminate.

(** *** slurp_file *)
Lemma slurp_own c text :
  own 1 [] (slurp c text) (fun r q g =>
    match r with
    | None => q = [] /\ Forall (fun o => handle o \/ exists i k, o = mkObj i KMem (firstn k c)) g
    | Some i => q = [mkObj i KMem (if text then c ++ [0%N] else c)] /\ Forall handle g
    end).
Proof.
  unfold slurp. own_go; try (split; [reflexivity |]).
  all: each; try is_handle.
  all: try (left; is_handle).
  right; eauto.
Qed.

Definition text_ok (src : rsrc) (r : bool) (o : robj) : Prop :=
  handle o \/
  match src with
  | SFile c => exists i, (exists d, o = mkObj i KMem d /\ text_wiped c (chomp (cstr c)) d) \/
                         (r = false /\ exists k, o = mkObj i KMem (firstn k c))
  | _ => False
  end.

Lemma decode_own b key d s :
  length d = 32 ->
  own b [mkObj key KStack d] (decode key s) (fun r q g =>
    g = [] /\ exists d', q = [mkObj key KStack d'] /\ length d' = 32 /\ decode_key_buf d s = (r, d')).
Proof.
  intros L. unfold decode. own_go. split; [reflexivity |].
  exists (snd (decode_key_buf d s)). split; [reflexivity |]. split; [apply length_decode, L |].
  destruct (decode_key_buf d s); reflexivity.
Qed.

Lemma keyspec_own key src d :
  length d = 32 ->
  own 1 [mkObj key KStack d] (keyspec key src) (fun r q g =>
    exists d', q = [mkObj key KStack d'] /\ length d' = 32 /\
      (r = true -> decode_key_buf d (src_text src) = (true, d')) /\ Forall (text_ok src r) g).
Proof.
  intros L. destruct src as [s | c |]; cbn [keyspec src_text].
  - eapply own_weaken; [apply decode_own, L |].
    cbn. intros r q g (-> & d' & -> & L' & E). exists d'. repeat split; auto. intros ->; exact E.
  - eapply own_call; [apply slurp_own | apply Permutation_refl | cbn; lia |].
    cbn beta. intros [buf |] q g (-> & Hg); cbn [app].
    + own_step. own_step.
      rewrite cstr_app0. set (s := chomp (cstr c)).
      eapply own_call;
        [eapply (decode_own 0), L | apply perm_swap | cbn; lia |].
      cbn beta. intros r q g' (-> & d' & -> & L' & E). cbn [app].
      own_go. exists d'. split; [reflexivity |]. split; [exact L' |]. split; [intros ->; exact E |].
      cbn. constructor.
      * right. exists buf. left. eexists; split; [reflexivity |]. apply wiped_text.
      * eapply Forall_impl; [| exact Hg]. intros o Ho; left; exact Ho.
    + own_go. exists d. repeat split; auto; try discriminate.
      cbn. eapply Forall_impl; [| exact Hg]. cbn. intros o [Ho | (i & k & ->)]; [left; exact Ho |].
      right. exists i. right. eauto.
  - own_go. exists d. repeat split; auto. discriminate.
Qed.

(** *** The cipher *)
Definition zero_stack (o : robj) : Prop := o_kind o = KStack /\ all_zero (o_data o).

Lemma restart_own ci ctx ck d nonce :
  ck = KStack \/ ck = KMem -> length d <= 64 ->
  own 0 [mkObj ctx ck d; mkObj ci KCipher []] (enc_restart ci ctx ck nonce) (fun _ q g =>
    q = [mkObj ctx ck d; mkObj ci KCipher []] /\ Forall zero_stack g).
Proof.
  intros Hk L. unfold enc_restart.
  destruct Hk as [-> | ->].
  all: own_step; generalize (hchacha20 d (firstn 16 nonce)); intros sub.
  all: own_go; (split; [reflexivity |]); cbn [app]; each; (split; [reflexivity |]); cbn [o_data];
       apply zeroed_all; lia.
Qed.

Lemma close_own ci ctx ck d :
  ck = KStack \/ ck = KMem ->
  own 0 [mkObj ctx ck d; mkObj ci KCipher []] (enc_close ci ctx ck) (fun _ q g =>
    (exists d', q = [mkObj ctx ck d'] /\ all_zero d') /\ Forall handle g).
Proof.
  intros [-> | ->]; unfold enc_close; own_go;
    (split; [eexists; split; [reflexivity | apply zeroed_all; lia] | cbn; each; is_handle]).
Qed.

(** *** csn-tool *)
Definition job_ok (l : list rjob) (o : robj) : Prop :=
  handle o \/ zero_stack o \/ exists j i k, In j l /\ o = mkObj i KMem (firstn k (j_data j)).

Lemma job_own ci ctx d j :
  length d <= 64 ->
  own 1 [mkObj ctx KStack d; mkObj ci KCipher []] (job ci ctx j) (fun _ q g =>
    q = [mkObj ctx KStack d; mkObj ci KCipher []] /\ Forall (job_ok [j]) g).
Proof.
  intros L. unfold job. own_go; try (split; [reflexivity | constructor]).
  eapply own_call; [apply restart_own; [now left | exact L] | apply Permutation_refl | cbn; lia |].
  cbn beta. intros ok q g (-> & Hg). cbn [app].
  assert (Hg' : Forall (job_ok [j]) g)
    by (eapply Forall_impl; [| exact Hg]; intros o Ho; right; left; exact Ho).
  destruct ok; [| own_go; split; [reflexivity | exact Hg']]. cbn [negb].
  eapply own_call; [apply slurp_own | apply Permutation_refl | cbn; lia |].
  cbn beta. intros [buf |] q g2 (-> & Hg2); cbn [app].
  - assert (Hg2' : Forall (job_ok [j]) g2)
      by (eapply Forall_impl; [| exact Hg2]; intros o Ho; left; exact Ho).
    assert (Hb : job_ok [j] (mkObj buf KMem (j_data j))).
    { right; right. exists j, buf, (length (j_data j)). split; [now left |]. now rewrite firstn_all. }
    destruct (j_stdout j); own_go; (split; [reflexivity |]); cbn;
      repeat (apply Forall_app; split); try assumption; each; try assumption; try (left; is_handle).
    all: apply Forall_app; split; assumption.
  - own_go. split; [reflexivity |]. cbn. apply Forall_app; split; [| exact Hg'].
    eapply Forall_impl; [| exact Hg2]. cbn. intros o [Ho | (i & k & ->)]; [left; exact Ho |].
    right; right. exists j, i, k. split; [now left | reflexivity].
Qed.

Lemma jobs_own ci ctx d l :
  length d <= 64 ->
  own 1 [mkObj ctx KStack d; mkObj ci KCipher []] (jobs ci ctx l) (fun _ q g =>
    q = [mkObj ctx KStack d; mkObj ci KCipher []] /\ Forall (job_ok l) g).
Proof.
  intros L. induction l as [| j l IH]; cbn [jobs].
  - own_go. split; [reflexivity | constructor].
  - eapply own_bind; [apply job_own, L |]. cbn beta. intros ok q g (-> & Hg).
    assert (Hg' : Forall (job_ok (j :: l)) g).
    { eapply Forall_impl; [| exact Hg]. intros o [Ho | [Ho | (j' & i & k & [<- | []] & ->)]]; [now left | right; now left |].
      right; right. exists j, i, k. split; [now left | reflexivity]. }
    destruct ok.
    + eapply own_weaken; [exact IH |]. cbn. intros _ q g2 (-> & Hg2). split; [reflexivity |].
      apply Forall_app; split; [| exact Hg'].
      eapply Forall_impl; [| exact Hg2]. intros o [Ho | [Ho | (j' & i & k & Hj & ->)]]; [now left | right; now left |].
      right; right. exists j', i, k. split; [now right | reflexivity].
    + own_go. split; [reflexivity | exact Hg'].
Qed.

(** The last object given back is the buffer [key]. *)
Lemma crypt_own src l :
  own 1 [] (crypt src l) (fun r q g =>
    q = [] /\ exists i d rest, g = mkObj i KStack d :: rest /\
      (r = true -> decode_key_buf key_buf_new (src_text src) = (true, d)) /\
      Forall (fun o => text_ok src r o \/ job_ok l o) rest).
Proof.
  unfold crypt. own_step.
  eapply own_call; [apply (keyspec_own i src key_buf_new eq_refl) | apply Permutation_refl | cbn; lia |].
  cbn beta. intros ok q g (d & -> & L & E & Hg). cbn [app].
  assert (Hd : forall r, ok = false -> r = false -> Forall (fun o => text_ok src r o \/ job_ok l o) g).
  { intros r -> ->. eapply Forall_impl; [| exact Hg]. now left. }
  assert (Ht : forall r, ok = true -> Forall (fun o => text_ok src r o \/ job_ok l o) g).
  { intros r ->. eapply Forall_impl; [| exact Hg]. intros o [Ho | Ho]; left; [now left | right].
    destruct src; auto. destruct Ho as (j & [Ho | [Ho _]]); [| discriminate]. exists j; left; exact Ho. }
  destruct ok; cbn [negb].
  2:{ own_go. split; [reflexivity |]. exists i, d, g. split; [reflexivity |].
      split; [discriminate |]. auto. }
  specialize (E eq_refl).
  own_step. unfold enc_init. own_step. own_step.
  - own_go.
    eapply own_call with (p0 := [mkObj i0 KStack d; mkObj i1 KCipher []]) (x := [mkObj i KStack d]);
      [apply jobs_own; lia | cbn [app]; perm_all | cbn; lia |].
    cbn beta. intros r q g2 (-> & Hg2). cbn [app].
    eapply own_call with (p0 := [mkObj i0 KStack d; mkObj i1 KCipher []]) (x := [mkObj i KStack d]);
      [apply close_own; now left | cbn [app]; perm_all | cbn; lia |].
    cbn beta. intros _ q g3 ((d' & -> & Hz) & Hg3). cbn [app].
    own_go. split; [reflexivity |]. exists i, d. eexists. split; [reflexivity |].
    split; [intros _; exact E |]. cbn [app].
    apply Forall_cons; [right; right; left; split; [reflexivity | exact Hz] |].
    repeat (apply Forall_app; split); auto.
    + eapply Forall_impl; [| exact Hg3]. intros o Ho; right; left; exact Ho.
    + eapply Forall_impl; [| exact Hg2]. intros o Ho; right; exact Ho.
  - own_go. split; [reflexivity |]. exists i, d. eexists. split; [reflexivity |].
    split; [discriminate |]. cbn [app]. apply Forall_cons; auto.
    right; right; left. split; [reflexivity | constructor].
Qed.

(** From the logic to whole programs. *)
Lemma own_always {A} b (m : RM A) Q :
  own b [] m Q ->
  always m (fun r live gone peak => exists q, Q r q gone /\ Permutation live q /\ peak <= b).
Proof.
  intros H a. specialize (H [] (r_init a)).
  assert (W : wfr (r_init a)) by (split; constructor).
  specialize (H W (Permutation_refl _)).
  destruct (m (r_init a)) as [[r | | |] st]; try contradiction.
  exists r, st. split; [reflexivity |].
  destruct H as (q & g & HQ & _ & P & Eg & Hp).
  rewrite app_nil_r in P. cbn in Eg. rewrite app_nil_r in Eg. subst g.
  exists q. repeat split; auto. cbn in Hp. lia.
Qed.
