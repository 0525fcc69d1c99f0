(** The rolling hash (C15). *)
From Verif Require Import Base Lib Utils Discr Chunker SpecChunker PfUtils PfBasic.
Ltac Zify.zify_post_hook ::= Z.div_mod_to_equations.
Local Open Scope N_scope.

Lemma testbit_ge_32 x i : x < 2 ^ 32 -> 32 <= i -> N.testbit x i = false.
Proof.
  intros Hx Hi. destruct (N.eq_dec x 0) as [->|Hx0]; [apply N.bits_0|].
  apply N.bits_above_log2. apply N.lt_le_trans with 32; [|lia]. apply N.log2_lt_pow2; lia.
Qed.
Lemma lt_2_32_bits x : (forall i, 32 <= i -> N.testbit x i = false) -> x < 2 ^ 32.
Proof.
  intros H. destruct (N.eq_dec x 0) as [->|Hx0]; [reflexivity|].
  destruct (N.lt_ge_cases x (2 ^ 32)) as [|G]; [assumption|]. exfalso.
  assert (L : 32 <= N.log2 x) by (apply N.log2_le_pow2; lia).
  specialize (H _ L). rewrite N.bit_log2 in H by assumption. discriminate.
Qed.

Lemma rol32_testbit x n i : x < 2 ^ 32 ->
  N.testbit (rol32 x n) i = (i <? 32) && N.testbit x ((i + (32 - n mod 32)) mod 32).
Proof.
  intros Hx. unfold rol32. set (k := n mod 32). assert (Hk : k < 32) by (unfold k; lia).
  clearbody k. destruct (k =? 0) eqn:E.
  - assert (k = 0) by lia. subst k. rewrite N.sub_0_r.
    destruct (i <? 32) eqn:Ei; cbn [andb].
    + f_equal. lia.
    + apply testbit_ge_32; [exact Hx|lia].
  - rewrite N.lor_spec. change M32 with (2 ^ 32).
    destruct (i <? 32) eqn:Ei; cbn [andb].
    + rewrite N.mod_pow2_bits_low by lia.
      destruct (N.lt_ge_cases i k).
      * rewrite N.shiftl_spec_low by lia. cbn [orb]. rewrite N.shiftr_spec by lia. f_equal. lia.
      * rewrite N.shiftl_spec_high by lia. rewrite N.shiftr_spec by lia.
        rewrite (testbit_ge_32 x (i + (32 - k))) by (assumption || lia). rewrite orb_false_r. f_equal. lia.
    + rewrite N.mod_pow2_bits_high by lia. cbn [orb]. rewrite N.shiftr_spec by lia.
      apply testbit_ge_32; [assumption|lia].
Qed.

Lemma rol32_lt x n : x < 2 ^ 32 -> rol32 x n < 2 ^ 32.
Proof. intros H. apply lt_2_32_bits. intros i Hi. rewrite rol32_testbit by assumption. now replace (i <? 32) with false by lia. Qed.

Lemma lxor_lt a b : a < 2 ^ 32 -> b < 2 ^ 32 -> N.lxor a b < 2 ^ 32.
Proof.
  intros Ha Hb. apply lt_2_32_bits. intros i Hi. rewrite N.lxor_spec.
  now rewrite !testbit_ge_32 by assumption.
Qed.

Lemma rol32_lxor a b n : a < 2 ^ 32 -> b < 2 ^ 32 -> rol32 (N.lxor a b) n = N.lxor (rol32 a n) (rol32 b n).
Proof.
  intros Ha Hb. apply N.bits_inj_iff. intros i.
  rewrite N.lxor_spec, !rol32_testbit, N.lxor_spec by auto using lxor_lt.
  destruct (i <? 32); reflexivity.
Qed.

Lemma rol32_rol32 x a b : x < 2 ^ 32 -> rol32 (rol32 x a) b = rol32 x (a + b).
Proof.
  intros Hx. apply N.bits_inj_iff. intros i. rewrite !rol32_testbit by auto using rol32_lt.
  destruct (i <? 32) eqn:Ei; [|reflexivity]. cbn [andb].
  replace ((i + (32 - b mod 32)) mod 32 <? 32) with true by lia. cbn [andb]. f_equal. lia.
Qed.

Lemma rol32_0 x : rol32 x 0 = x. Proof. reflexivity. Qed.

Lemma rot_rol32 x n : x < 2 ^ 32 -> rot x n = rol32 x (N.of_nat n).
Proof.
  intros Hx. unfold rot, rol32.
  replace (N.of_nat (n mod 32)) with (N.of_nat n mod 32) by lia.
  set (k := N.of_nat n mod 32). assert (Hk : k < 32) by (unfold k; lia). clearbody k.
  destruct (k =? 0) eqn:E.
  - assert (k = 0) by lia. subst k. change (32 - 0) with 32. change (2 ^ 0) with 1. rewrite N.mul_1_r.
    rewrite N.mod_small by assumption. rewrite N.div_small by assumption. lia.
  - rewrite N.shiftl_mul_pow2, N.shiftr_div_pow2. change M32 with (2 ^ 32).
    (* the low k bits of the first part are 0 and the second part is below 2^k *)
    assert (P : 2 ^ 32 = 2 ^ k * 2 ^ (32 - k)) by (rewrite <- N.pow_add_r; f_equal; lia).
    assert (Hk0 : 2 ^ k <> 0) by (apply N.pow_nonzero; lia).
    assert (Hk1 : 2 ^ (32 - k) <> 0) by (apply N.pow_nonzero; lia).
    assert (M : (x * 2 ^ k) mod 2 ^ 32 = (x mod 2 ^ (32 - k)) * 2 ^ k).
    { rewrite P. rewrite (N.mul_comm x). rewrite N.mul_mod_distr_l by assumption. apply N.mul_comm. }
    assert (L : x / 2 ^ (32 - k) < 2 ^ k).
    { apply N.div_lt_upper_bound; [assumption|]. rewrite N.mul_comm, <- P. exact Hx. }
    rewrite M. rewrite <- lor_disjoint_add by exact L. now rewrite N.shiftl_mul_pow2.
Qed.

Lemma buz_lt b : buz b < 2 ^ 32.
Proof.
  assert (G : forallb (fun x => x <? 2 ^ 32) buzhash_table = true) by (vm_compute; reflexivity).
  rewrite forallb_forall in G. unfold buz.
  destruct (lt_dec (N.to_nat b) (length buzhash_table)).
  - assert (In (nth (N.to_nat b) buzhash_table 0) buzhash_table) by (apply nth_In; lia).
    specialize (G _ H). lia.
  - rewrite nth_overflow by lia. reflexivity.
Qed.

Lemma buzhash_lt w : buzhash w < 2 ^ 32.
Proof.
  induction w as [|b w IH]; cbn [buzhash]; [reflexivity|].
  apply lxor_lt; [|exact IH]. rewrite rot_rol32 by apply buz_lt. apply rol32_lt, buz_lt.
Qed.

Lemma buzhash_snoc w b : buzhash (w ++ [b]) = N.lxor (rol32 (buzhash w) 1) (buz b).
Proof.
  induction w as [|x w IH]; cbn [app buzhash length].
  - rewrite rot_rol32 by apply buz_lt. rewrite N.lxor_0_r. reflexivity.
  - rewrite IH, app_length. cbn [length]. rewrite !rot_rol32 by apply buz_lt.
    rewrite rol32_lxor by (auto using rol32_lt, buz_lt, buzhash_lt).
    rewrite rol32_rol32 by apply buz_lt.
    replace (N.of_nat (length w + 1)) with (N.of_nat (length w) + 1) by lia.
    now rewrite N.lxor_assoc.
Qed.

(** One step of the rolling hash: drop the oldest byte, take in a new one. *)
Lemma buzhash_roll o w b : length w = 47%nat ->
  buzhash (w ++ [b]) = N.lxor (N.lxor (rol32 (buzhash (o :: w)) 1) (rol32 (buz o) 48)) (buz b).
Proof.
  intros L. rewrite buzhash_snoc. f_equal. cbn [buzhash]. rewrite L.
  rewrite rot_rol32 by apply buz_lt.
  rewrite rol32_lxor by (auto using rol32_lt, buz_lt, buzhash_lt).
  rewrite rol32_rol32 by apply buz_lt. change (N.of_nat 47 + 1) with 48.
  rewrite (N.lxor_comm (rol32 (buz o) 48)), N.lxor_assoc, N.lxor_nilpotent, N.lxor_0_r. reflexivity.
Qed.

(** The initial computation over the filled window. *)
Lemma hash_window_spec : forall win h, hash_window win (length win) h = N.lxor h (buzhash win).
Proof.
  induction win as [|b win IH]; intros h; cbn [hash_window length buzhash]; [now rewrite N.lxor_0_r|].
  rewrite IH, rot_rol32 by apply buz_lt. apply N.lxor_assoc.
Qed.
