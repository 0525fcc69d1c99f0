(** The chunk index (C22). *)
From Coq Require Import Sorting.Permutation Sorting.Sorted.
From Verif Require Import Base Lib Utils Index SpecEnv SpecIndex.
Local Open Scope N_scope.

(** Allocation with the reason for a failure. *)
Lemma wp_alloc_why (Q : bool -> world -> Prop) (R : bad -> world -> Prop) w :
  (forall al, incl al (w_alloc w) -> Q true (set_alloc al w)) ->
  (forall al, incl al (w_alloc w) -> In false (w_alloc w) -> Q false (set_alloc al w)) -> wp alloc Q R w.
Proof.
  unfold wp, alloc. intros H1 H2. destruct (w_alloc w) as [|b r] eqn:E.
  - specialize (H1 [] (incl_refl _)). destruct w; cbn in *; subst; exact H1.
  - destruct b; [apply H1|apply H2]; try (apply incl_tl, incl_refl). now left.
Qed.
Lemma set_alloc_id w : set_alloc (w_alloc w) w = w. Proof. destruct w; reflexivity. Qed.

Definition idx_ok (x : index) : Prop :=
  ix_ptr x = PLive /\ n_entries x <= ix_space x /\ (ix_sorted x = true -> ids_sorted (ix_entries x)).

Lemma wp_index_init x n (Q : bool * index -> world -> Prop) (R : bad -> world -> Prop) w :
  (n = 0 -> R BAbort w) ->
  (forall al, incl al (w_alloc w) -> 0 < n -> idx_ok (mkIndex false n [] PLive) -> Q (true, mkIndex false n [] PLive) (set_alloc al w)) ->
  (forall al, incl al (w_alloc w) -> In false (w_alloc w) -> 0 < n ->
     Q (false, mkIndex (ix_sorted x) (ix_space x) (ix_entries x) PNull) (set_alloc al w)) ->
  wp (index_init x n) Q R w.
Proof.
  intros H0 H1 H2. unfold index_init. apply wp_bind, wp_assert; intros Hn; [|apply H0; lia].
  apply wp_bind, wp_alloc_why; intros; apply wp_ret.
  - apply H1; auto; [lia|]. split; [reflexivity|]. split; [cbn; lia|discriminate].
  - apply H2; auto. lia.
Qed.

Lemma wp_index_insert x off len id (Q : option nat * index -> world -> Prop) (R : bad -> world -> Prop) w :
  idx_ok x -> 60 * (n_entries x + 1) < 2 ^ 64 ->
  (len = 0 -> R BAbort w) ->
  (forall al space, incl al (w_alloc w) -> len <> 0 -> idx_ok (mkIndex false space (ix_entries x ++ [mkEntry off len 0 id]) PLive) ->
     Q (Some (length (ix_entries x)), mkIndex false space (ix_entries x ++ [mkEntry off len 0 id]) PLive) (set_alloc al w)) ->
  (forall al, incl al (w_alloc w) -> In false (w_alloc w) -> len <> 0 -> Q (None, x) (set_alloc al w)) ->
  wp (index_insert x off len id) Q R w.
Proof.
  intros (Hp & Hs & _) Hn H0 H1 H2. unfold index_insert. apply wp_bind, wp_assert; intros Hl; [|apply H0; lia].
  assert (Hl' : len <> 0) by lia. rewrite Hp.
  assert (Hnew : forall space, n_entries x < space -> idx_ok (mkIndex false space (ix_entries x ++ [mkEntry off len 0 id]) PLive)).
  { intros space Hsp. split; [reflexivity|]. split; [|discriminate]. unfold n_entries in *. cbn [ix_entries ix_space].
    rewrite app_length. cbn. lia. }
  destruct (ix_space x <=? n_entries x) eqn:G.
  - apply wp_bind, wp_alloc_why; intros al Ha; [|intros Hf; cbn [negb]; apply wp_ret, H2; auto].
    cbn [negb]. assert (ix_space x = n_entries x) as -> by lia.
    rewrite (N.mod_small (n_entries x * 12)) by (unfold SIZE_MOD; change (2 ^ 64) with 18446744073709551616 in Hn; lia).
    assert (L : n_entries x < n_entries x * 12 / 10 + 1) by (pose proof (N.div_le_lower_bound (n_entries x * 12) 10 (n_entries x)); lia).
    assert (U : (n_entries x * 12 / 10 + 1) * ENTRY_SIZE < SIZE_MOD).
    { pose proof (N.mul_div_le (n_entries x * 12) 10 ltac:(discriminate)). unfold ENTRY_SIZE, SIZE_MOD. change (2 ^ 64) with 18446744073709551616 in Hn. lia. }
    rewrite (N.mod_small _ _ U). destruct ((n_entries x * 12 / 10 + 1) * ENTRY_SIZE <? _) eqn:G2; [unfold ENTRY_SIZE in G2; lia|].
    apply wp_ret, H1; auto.
  - apply wp_bind, wp_ret. cbn [negb]. destruct (ix_space x * ENTRY_SIZE <? _) eqn:G2; [unfold ENTRY_SIZE in G2; lia|]. apply wp_ret. rewrite <- (set_alloc_id w) at 1.
    apply H1; auto; [apply incl_refl|]. apply Hnew. lia.
Qed.

Lemma wp_index_query E x id (Q : option nat * index -> world -> Prop) (R : bad -> world -> Prop) w :
  qsort_ok E -> bsearch_ok E -> idx_ok x ->
  (forall pos x' e, idx_ok x' -> Permutation (ix_entries x) (ix_entries x') ->
     nth_error (ix_entries x') pos = Some e -> en_id e = id -> Q (Some pos, x') w) ->
  (forall x', idx_ok x' -> Permutation (ix_entries x) (ix_entries x') ->
     (forall e, In e (ix_entries x) -> en_id e <> id) -> Q (None, x') w) ->
  wp (index_query E x id) Q R w.
Proof.
  intros Hq Hb (Hp & Hs & Hsorted) H1 H2. unfold index_query. rewrite Hp.
  set (x' := if ix_sorted x then x else index_sort E x).
  assert (Hx : idx_ok x' /\ Permutation (ix_entries x) (ix_entries x') /\ ids_sorted (ix_entries x')).
  { unfold x'. destruct (ix_sorted x) eqn:S.
    - split; [split; [exact Hp|split; [exact Hs|auto]]|]. split; [reflexivity|auto].
    - destruct (Hq (ix_entries x)) as (P & SS). unfold index_sort, idx_ok, n_entries in *. cbn [ix_entries ix_ptr ix_space ix_sorted].
      rewrite <- (Permutation_length P). auto. }
  destruct Hx as (K & P & SS). clearbody x'.
  destruct (ix_entries x) as [|e0 l0] eqn:EE; apply wp_ret; specialize (Hb _ id SS);
    destruct (e_bsearch E (ix_entries x') id) as [pos|].
  - destruct Hb as (e & N1 & N2). eapply H1; eauto.
  - apply H2; auto.
  - destruct Hb as (e & N1 & N2). eapply H1; eauto.
  - apply H2; auto. intros e He. apply Hb. now rewrite <- P.
Qed.

Lemma index_get_app x off len id space (Q : entry -> world -> Prop) R w :
  Q (mkEntry off len 0 id) w ->
  wp (index_get (mkIndex false space (ix_entries x ++ [mkEntry off len 0 id]) PLive) (length (ix_entries x))) Q R w.
Proof.
  intros H. unfold index_get. cbn [ix_entries]. rewrite nth_error_app2, Nat.sub_diag by lia. now apply wp_ret.
Qed.
Lemma wp_index_get x pos e (Q : entry -> world -> Prop) R w : nth_error (ix_entries x) pos = Some e -> Q e w -> wp (index_get x pos) Q R w.
Proof. intros H HQ. unfold index_get. rewrite H. now apply wp_ret. Qed.

Lemma n_entries_perm x x' : Permutation (ix_entries x) (ix_entries x') -> n_entries x' = n_entries x.
Proof. intros P. unfold n_entries. now rewrite (Permutation_length P). Qed.

Definition lens_positive (ops : list iop) : Prop :=
  Forall (fun o => match o with OpInsert _ len _ => len <> 0 | OpQuery _ => True end) ops.

Lemma run_ops_spec E (Hq : qsort_ok E) (Hb : bsearch_ok E) (fails : Prop) : forall ops x ins w,
  lens_positive ops -> idx_ok x -> Permutation (ix_entries x) ins ->
  60 * (n_entries x + N.of_nat (length ops) + 1) < 2 ^ 64 -> (In false (w_alloc w) -> fails) ->
  wp (run_ops E x ops) (fun rs _ => answers fails ins ops rs) (fun _ _ => False) w.
Proof.
  induction ops as [|o ops IH]; intros x ins w Hl Hx P Hn Hf; cbn [run_ops]; [apply wp_ret; exact I|].
  inversion Hl as [|? ? Ho Hl']; subst. destruct o as [off len id|id].
  - apply wp_bind, wp_index_insert; auto.
    + cbn [length] in Hn. change (2 ^ 64) with 18446744073709551616 in *. lia.
    + intros al space Ha _ Hx'. apply wp_bind, wp_bind, index_get_app, wp_ret, wp_bind.
      eapply wp_mono; [apply IH with (ins := mkEntry off len 0 id :: ins); auto| |auto].
      * cbn [ix_entries]. rewrite P. symmetry. apply Permutation_cons_append.
      * unfold n_entries in *. cbn [ix_entries length] in *. rewrite app_length. cbn [length]. change (2 ^ 64) with 18446744073709551616 in *. lia.
      * intros rs w' H. apply wp_ret. cbn [answers]. left. auto.
    + intros al Ha Hin _. apply wp_bind, wp_ret, wp_bind.
      eapply wp_mono; [apply IH with (ins := ins); auto| |auto].
      * cbn [length] in Hn. change (2 ^ 64) with 18446744073709551616 in *. lia.
      * intros rs w' H. apply wp_ret. cbn [answers]. right. auto.
  - apply wp_bind, wp_index_query; auto.
    + intros pos x' e Hx' P' N1 N2. apply wp_bind, wp_bind. eapply wp_index_get; [exact N1|]. apply wp_ret, wp_bind.
      eapply wp_mono; [apply IH with (ins := ins); auto| |auto].
      * rewrite <- P'. exact P.
      * rewrite (n_entries_perm _ _ P'). cbn [length] in Hn. change (2 ^ 64) with 18446744073709551616 in *. lia.
      * intros rs w' H. apply wp_ret. cbn [answers]. split; [|exact H]. split; [|exact N2].
        rewrite <- P, P'. eapply nth_error_In; eauto.
    + intros x' Hx' P' Hno. apply wp_bind, wp_ret, wp_bind.
      eapply wp_mono; [apply IH with (ins := ins); auto| |auto].
      * rewrite <- P'. exact P.
      * rewrite (n_entries_perm _ _ P'). cbn [length] in Hn. change (2 ^ 64) with 18446744073709551616 in *. lia.
      * intros rs w' H. apply wp_ret. cbn [answers]. split; [|exact H]. intros e He. apply Hno. now rewrite P.
Qed.

Lemma use_index_spec E expected ops w : qsort_ok E -> bsearch_ok E -> 0 < expected -> lens_positive ops ->
  60 * (N.of_nat (length ops) + 1) < 2 ^ 64 ->
  match use_index E expected ops w with
  | (Ok (Some rs), _) => answers (In false (w_alloc w)) [] ops rs
  | (Ok None, _) => In false (w_alloc w)
  | _ => False
  end.
Proof.
  intros Hq Hb He Hl Hn.
  assert (G : wp (use_index E expected ops) (fun r _ => match r with Some rs => answers (In false (w_alloc w)) [] ops rs | None => In false (w_alloc w) end) (fun _ _ => False) w).
  { unfold use_index. apply wp_bind, wp_index_init; [lia| |].
    - intros al Ha _ Hx. apply wp_bind. eapply wp_mono; [apply run_ops_spec with (fails := In false (w_alloc w)) (ins := []); auto| |auto].
      intros rs w' H. apply wp_ret, H.
    - intros al Ha Hin _. apply wp_ret, Hin. }
  unfold wp in G. destruct (use_index E expected ops w) as [[[rs|]| | |] w']; auto.
Qed.
