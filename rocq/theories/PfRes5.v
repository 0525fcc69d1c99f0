(** What the programs of Res.v leave behind: final statements. *)
From Verif Require Import Base Utils Encrypt Res SpecRes PfRes PfRes2 PfRes3 PfRes4.
From Coq Require Import Permutation Lia Arith.
Local Open Scope nat_scope.
Local Open Scope res_scope.

Lemma always_weaken {A} (m : RM A) (P Q : A -> list robj -> list robj -> nat -> Prop) :
  always m P -> (forall r live gone peak, P r live gone peak -> Q r live gone peak) -> always m Q.
Proof. intros H HPQ a. destruct (H a) as (r & st & E & HP). exists r, st. auto. Qed.

Lemma tool_releases src l : always (crypt src l) (fun _ live _ peak => live = [] /\ peak <= 1).
Proof.
  eapply always_weaken; [exact (own_always 1 _ _ (crypt_own src l)) |]. cbn.
  intros r live gone peak (q & (-> & _) & P & Hp). split; [apply Permutation_nil; now symmetry | exact Hp].
Qed.
Lemma tool_stack src l : always (crypt src l) (fun r _ gone _ => exists i d rest,
  gone = mkObj i KStack d :: rest /\ (r = true -> decode_key_buf key_buf_new (src_text src) = (true, d)) /\
  forall o, In o rest -> o_kind o = KStack -> all_zero (o_data o)).
Proof.
  eapply always_weaken; [exact (own_always 1 _ _ (crypt_own src l)) |]. cbn.
  intros r live gone peak (q & (_ & i & d & rest & -> & E & Hr) & _ & _). exists i, d, rest.
  split; [reflexivity |]. split; [exact E |]. rewrite Forall_forall in Hr. intros o Ho Hk.
  destruct (Hr o Ho) as [[H | H] | [H | [H | (j & i' & k & _ & ->)]]].
  - destruct H as [_ H]; contradiction.
  - destruct src; try contradiction. destruct H as (i' & [(d' & -> & _) | (_ & k & ->)]); discriminate.
  - destruct H as [_ H]; contradiction.
  - apply H.
  - discriminate.
Qed.
Lemma tool_heap src l : always (crypt src l) (fun r _ gone _ => r = true -> forall o, In o gone -> o_kind o = KMem ->
  (exists c, src = SFile c /\ text_wiped c (src_text src) (o_data o)) \/
  (exists j k, In j l /\ o_data o = firstn k (j_data j))).
Proof.
  eapply always_weaken; [exact (own_always 1 _ _ (crypt_own src l)) |]. cbn.
  intros r live gone peak (q & (_ & i & d & rest & -> & _ & Hr) & _ & _) -> o [<- | Ho] Hk; [discriminate |].
  rewrite Forall_forall in Hr. destruct (Hr o Ho) as [[H | H] | [H | [H | (j & i' & k & Hj & ->)]]].
  - destruct H as [H _]; contradiction.
  - destruct src as [| c |]; try contradiction.
    destruct H as (i' & [(d' & -> & H) | (C & _)]); [| discriminate]. left. exists c. auto.
  - destruct H as [H _]; contradiction.
  - destruct H as [H _]. rewrite Hk in H. discriminate.
  - right. exists j, k. auto.
Qed.

Lemma http_leftovers a ps l : always (http_life a ps l) (fun r live _ peak =>
  count KCipher live = length live /\ length live <= encrypts ps /\
  (r = true -> length live = encrypts ps - 1) /\ peak <= 1).
Proof.
  eapply always_weaken; [exact (own_always 1 _ _ (http_life_own a ps l)) |]. cbn.
  intros r live gone peak (q & (ids & -> & Hl & Hr) & P & Hp).
  rewrite (count_perm _ _ _ P), count_cips, (Permutation_length P). unfold cips. rewrite map_length. cbn [rkind_eqb].
  repeat split; auto.
  - destruct r; lia.
  - intros E. apply Hr, E.
Qed.
Lemma http_heap a ps l : always (http_life a ps l) (fun r _ gone _ => r = true -> forall o, In o gone -> o_kind o = KMem ->
  all_zero (o_data o) \/ (exists k, o_data o = firstn k a) \/ exists c, In (PEncrypt (SFile c)) ps /\ text_wiped c (src_text (SFile c)) (o_data o)).
Proof.
  eapply always_weaken; [exact (own_always 1 _ _ (http_life_own a ps l)) |]. cbn.
  intros r live gone peak (q & (ids & -> & Hl & Hr) & _ & _) E o Ho Hk. destruct (Hr E) as [_ Hg].
  rewrite Forall_forall in Hg. destruct (Hg o Ho) as [[H | H] | H]; [left; exact (H Hk) | right; right; exact H | right; left; exact H].
Qed.

Lemma local_leftovers sp ix n : sp && ix = false -> always (local_life sp ix n) (fun r live _ peak =>
  peak <= 2 /\ count KFd live + count KMem live = length live /\ count KFd live <= 1 /\ count KMem live <= count KFd live /\
  (r = true -> count KFd live = 1 /\ count KMem live = 0)).
Proof.
  intros H. eapply always_weaken; [exact (own_always 2 _ _ (local_life_own sp ix n H)) |]. cbn.
  intros r live gone peak (q & HQ & P & Hp). split; [exact Hp |].
  rewrite (count_perm _ _ _ P), (count_perm _ _ _ P), (Permutation_length P). destruct r.
  - destruct HQ as (fd & ->). cbn. repeat split; lia.
  - destruct HQ as [-> | (fd & [-> | (i & ->)])]; cbn; repeat split; try lia; discriminate.
Qed.

Lemma run_leftovers hint args reqs : forallb (fun a => negb (is_odd a)) args = true ->
  always (run hint args reqs) (fun r live _ peak => peak <= 3 + n_local args /\
    (r = true -> count KFd live = 2 + n_local args /\ count KMem live = 1 + (if existsb is_target args then 1 else 0) /\
       count KCipher live = n_lost args /\ count KCurl live = 0 /\ count KZstd live = 0 /\ count KStack live = 0)).
Proof.
  intros H. eapply always_weaken; [exact (own_always _ _ _ (run_own hint args reqs H)) |]. cbn beta.
  intros r live gone peak (q & HQ & P & Hp). split; [exact Hp |]. intros E. specialize (HQ E).
  now rewrite !(count_perm _ _ _ P).
Qed.

Lemma kcapi_releases long n : always (kcapi long n) (fun _ live _ peak => live = [] /\ peak <= 2).
Proof.
  eapply always_weaken; [exact (own_always 2 _ _ (kcapi_own long n)) |]. cbn.
  intros r live gone peak (q & -> & P & Hp). split; [apply Permutation_nil; now symmetry | exact Hp].
Qed.

(** A run that shows something else refutes [always]. *)
Lemma not_always {A} (m : RM A) (P : A -> list robj -> list robj -> nat -> Prop) a r st :
  m (r_init a) = (Ok r, st) -> ~ P r (r_live st) (r_gone st) (r_peak st) -> ~ always m P.
Proof. intros E N H. destruct (H a) as (r' & st' & E' & HP). rewrite E in E'. injection E' as <- <-. exact (N HP). Qed.

Lemma chain_new_leaves hint : always (chain_new hint) (fun r live _ _ => match r with None => live = [] | Some _ => map o_kind live = [KMem; KMem] end).
Proof. intros a. destruct a as [|[] [|[] a]]; cbn; eexists; eexists; (split; [reflexivity|reflexivity]). Qed.
