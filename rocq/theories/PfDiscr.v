(** The discriminator in binary64 arithmetic (C19).  SpecFloat's operations are related to Flocq's
    rounding of reals; the rest is monotonicity of rounding and evaluation at the end points. *)
From Coq Require Import ZArith NArith Reals Lra Lia.
From Coq Require Import Floats.SpecFloat.
From Flocq Require Import Core BinarySingleNaN.
From Verif Require Import Discr.
Local Open Scope R_scope.

Lemma Hprec : Prec_gt_0 53. Proof. reflexivity. Qed.
Lemma Hmax : Prec_lt_emax 53 1024. Proof. reflexivity. Qed.
#[local] Existing Instance Hprec.
#[local] Existing Instance Hmax.
Notation bf := (binary_float 53 1024).
Notation rnd := (round radix2 (SpecFloat.fexp 53 1024) ZnearestE).

Lemma round_nearest_even_equiv s m l : round_nearest_even m l = choice_mode mode_NE s m l.
Proof.
  case l; [reflexivity|intro c]. case c; [|reflexivity..].
  now simpl; unfold Round.cond_incr; case Z.even.
Qed.
Lemma binary_round_aux_equiv sx mx ex lx :
  SpecFloat.binary_round_aux 53 1024 sx mx ex lx = binary_round_aux 53 1024 mode_NE sx mx ex lx.
Proof.
  unfold SpecFloat.binary_round_aux, binary_round_aux. set (mrse' := shr_fexp _ _ _ _ _).
  case mrse'; intros mrs' e'; simpl. now rewrite (round_nearest_even_equiv sx).
Qed.
Lemma binary_round_equiv s m e : SpecFloat.binary_round 53 1024 s m e = binary_round 53 1024 mode_NE s m e.
Proof.
  unfold SpecFloat.binary_round, binary_round, shl_align_fexp.
  set (mez := shl_align _ _ _); case mez as [mz ez]. apply binary_round_aux_equiv.
Qed.
Lemma binary_normalize_equiv m e szero :
  SpecFloat.binary_normalize 53 1024 m e szero = B2SF (binary_normalize 53 1024 Hprec Hmax mode_NE m e szero).
Proof.
  case m as [ |p|p]; [now simpl|..]; simpl; rewrite B2SF_SF2B; apply binary_round_equiv.
Qed.
Lemma SFmul_B (x y : bf) : SFmul 53 1024 (B2SF x) (B2SF y) = B2SF (Bmult mode_NE x y).
Proof.
  case x as [sx|sx| |sx mx ex Bx]; case y as [sy|sy| |sy my ey By]; [now trivial..|].
  simpl. rewrite B2SF_SF2B. apply binary_round_aux_equiv.
Qed.
Lemma SFadd_B (x y : bf) : SFadd 53 1024 (B2SF x) (B2SF y) = B2SF (Bplus mode_NE x y).
Proof.
  case x as [sx|sx| |sx mx ex Bx]; case y as [sy|sy| |sy my ey By]; [now (trivial || simpl; case Bool.eqb)..|].
  apply binary_normalize_equiv.
Qed.
Lemma SFdiv_B (x y : bf) : SFdiv 53 1024 (B2SF x) (B2SF y) = B2SF (Bdiv mode_NE x y).
Proof.
  case x as [sx|sx| |sx mx ex Bx]; case y as [sy|sy| |sy my ey By]; [now (trivial || simpl; case Bool.eqb)..|].
  simpl. rewrite B2SF_SF2B. set (melz := SFdiv_core_binary _ _ _ _ _ _). case melz as [[mz ez] lz].
  apply binary_round_aux_equiv.
Qed.

Definition b_of (n : Z) : bf := binary_normalize 53 1024 Hprec Hmax mode_NE n 0 false.
Definition b_slope : bf := binary_normalize 53 1024 Hprec Hmax mode_NE (-2699094101842085) (-74) true.
Definition b_icept : bf := binary_normalize 53 1024 Hprec Hmax mode_NE 6000484229057709 (-52) false.
Definition b_prod n : bf := Bmult mode_NE b_slope (b_of n).
Definition b_den n : bf := Bplus mode_NE (b_prod n) b_icept.
Definition b_disc n : bf := Bdiv mode_NE (b_of n) (b_den n).

Lemma disc_B n : discriminator_from_avg n = size_of_f (B2SF (b_disc (Z.of_N n))).
Proof.
  unfold discriminator_from_avg, b_disc, b_den, b_prod, f_of_N, f_slope, f_icept, b_of, b_slope, b_icept, fprec, femax.
  rewrite <- SFdiv_B, <- SFadd_B, <- SFmul_B, <- !binary_normalize_equiv. reflexivity.
Qed.

(** Small integers are exact. *)
Lemma fexp_valid : Valid_exp (SpecFloat.fexp 53 1024).
Proof. apply fexp_correct. exact Hprec. Qed.
#[local] Existing Instance fexp_valid.

Lemma format_small n : (Z.abs n < 2 ^ 53)%Z -> generic_format radix2 (SpecFloat.fexp 53 1024) (IZR n).
Proof.
  intros H. apply generic_format_FLT. exists (Float radix2 n 0); cbn; [unfold F2R; cbn; lra|exact H|lia].
Qed.

Lemma bpow1024_big : IZR (2 ^ 64) < bpow radix2 1024.
Proof.
  change (IZR (2 ^ 64)) with (IZR (Zpower radix2 64)). rewrite IZR_Zpower by lia. apply bpow_lt. lia.
Qed.

Lemma b_of_spec n : (Z.abs n < 2 ^ 53)%Z -> B2R (b_of n) = IZR n /\ is_finite (b_of n) = true.
Proof.
  intros H. pose proof (binary_normalize_correct 53 1024 Hprec Hmax mode_NE n 0 false) as C.
  cbv zeta in C. unfold F2R in C. cbn [Fnum Fexp bpow round_mode] in C. rewrite Rmult_1_r in C.
  rewrite round_generic in C by (auto with typeclass_instances; apply format_small, H).
  rewrite Rlt_bool_true in C; [tauto|].
  apply Rlt_trans with (IZR (2 ^ 64)); [|apply bpow1024_big].
  rewrite <- abs_IZR. apply IZR_lt. lia.
Qed.

Lemma slope_val : B2R b_slope = IZR (-2699094101842085) * bpow radix2 (-74) /\ is_finite b_slope = true.
Proof.
  assert (E : B2SF b_slope = S754_finite true 5398188203684170 (-75)) by (vm_compute; reflexivity).
  split.
  - rewrite <- SF2R_B2SF, E. cbn [SF2R]. unfold F2R. cbn [Fnum Fexp cond_Zopp].
    replace (-74)%Z with (1 + -75)%Z by lia. rewrite bpow_plus. change (bpow radix2 1) with 2. 
    replace (IZR (- (5398188203684170))) with (IZR (-2699094101842085) * 2) by (rewrite <- mult_IZR; reflexivity).
    apply Rmult_assoc.
  - rewrite <- is_finite_SF_B2SF, E. reflexivity.
Qed.
Lemma icept_val : B2R b_icept = IZR 6000484229057709 * bpow radix2 (-52) /\ is_finite b_icept = true.
Proof.
  assert (E : B2SF b_icept = S754_finite false 6000484229057709 (-52)) by (vm_compute; reflexivity).
  split.
  - rewrite <- SF2R_B2SF, E. reflexivity.
  - rewrite <- is_finite_SF_B2SF, E. reflexivity.
Qed.

Definition slope : R := B2R b_slope.
Definition icept : R := B2R b_icept.
Lemma slope_bounds : - / 1000000 <= slope <= - / 8388608.
Proof.
  unfold slope. rewrite (proj1 slope_val).
  replace (bpow radix2 (-74)) with (/ 18889465931478580854784)
    by (change (-74)%Z with (- (74))%Z; rewrite bpow_opp; f_equal; rewrite <- IZR_Zpower by lia; reflexivity).
  split; lra.
Qed.
Lemma icept_bounds : 1.3 <= icept <= 1.4.
Proof.
  unfold icept. rewrite (proj1 icept_val).
  replace (bpow radix2 (-52)) with (/ 4503599627370496)
    by (change (-52)%Z with (- (52))%Z; rewrite bpow_opp; f_equal; rewrite <- IZR_Zpower by lia; reflexivity).
  split; lra.
Qed.

Lemma rnd_le x y : x <= y -> rnd x <= rnd y.
Proof. apply round_le; auto with typeclass_instances. Qed.
Lemma rnd_B (x : bf) : rnd (B2R x) = B2R x.
Proof. apply round_generic; auto with typeclass_instances. apply generic_format_B2R. Qed.
Lemma rnd_Z n : (Z.abs n < 2 ^ 53)%Z -> rnd (IZR n) = IZR n.
Proof. intros. apply round_generic; auto with typeclass_instances. now apply format_small. Qed.
Lemma no_overflow x n : (0 <= n <= 2 ^ 52)%Z -> - IZR n <= x <= IZR n -> Rlt_bool (Rabs (rnd x)) (bpow radix2 1024) = true.
Proof.
  intros Hn Hx. apply Rlt_bool_true. apply Rle_lt_trans with (IZR n).
  - apply Rabs_le. split.
    + rewrite <- opp_IZR, <- (rnd_Z (- n)), opp_IZR by lia. apply rnd_le. lra.
    + rewrite <- (rnd_Z n) by lia. apply rnd_le. lra.
  - apply Rle_lt_trans with (IZR (2 ^ 64)); [apply IZR_le; lia|apply bpow1024_big].
Qed.

(** For averages below 2^32, product and denominator are what one expects. *)
Section N.
Variable n : Z.
Hypothesis Hn : (0 <= n < 2 ^ 32)%Z.
Lemma Hn' : 0 <= IZR n < 4294967296.
Proof. split; [apply IZR_le|apply IZR_lt]; lia. Qed.
Lemma prod_spec : B2R (b_prod n) = rnd (slope * IZR n) /\ is_finite (b_prod n) = true /\ -5000 <= B2R (b_prod n) <= 0.
Proof.
  destruct (b_of_spec n) as [V F]; [lia|]. destruct slope_val as [_ Fs].
  pose proof slope_bounds as Sb. pose proof Hn' as Nb.
  pose proof (Bmult_correct 53 1024 Hprec Hmax mode_NE b_slope (b_of n)) as C. fold (b_prod n) in C.
  cbn [round_mode] in C. rewrite V in C. fold slope in C.
  assert (B : - IZR 5000 <= slope * IZR n <= IZR 5000).
  { split; nra. }
  rewrite (no_overflow _ 5000) in C by (lia || exact B). destruct C as (C1 & C2 & _).
  rewrite Fs, F in C2. split; [exact C1|]. split; [exact C2|]. rewrite C1. split.
  - rewrite <- (rnd_Z (-5000)) by lia. apply rnd_le. lra.
  - rewrite <- (rnd_Z 0) by lia. apply rnd_le. nra.
Qed.
Lemma den_spec : B2R (b_den n) = rnd (B2R (b_prod n) + icept) /\ is_finite (b_den n) = true /\
  -5000 <= B2R (b_den n) <= icept.
Proof.
  destruct prod_spec as (P1 & P2 & P3). destruct icept_val as [_ Fi]. pose proof icept_bounds as Ib.
  pose proof (Bplus_correct 53 1024 Hprec Hmax mode_NE (b_prod n) b_icept P2 Fi) as C. fold (b_den n) in C.
  cbn [round_mode] in C. fold icept in C.
  rewrite (no_overflow _ 5002) in C by (lia || lra). destruct C as (C1 & C2 & _).
  split; [exact C1|]. split; [exact C2|]. rewrite C1. split.
  - rewrite <- (rnd_Z (-5000)) by lia. apply rnd_le. lra.
  - replace icept with (rnd icept) at 2 by apply rnd_B. apply rnd_le. lra.
Qed.
End N.

(** The denominator falls with the average. *)
Lemma den_mono a b : (0 <= a <= b)%Z -> (b < 2 ^ 32)%Z -> B2R (b_den b) <= B2R (b_den a).
Proof.
  intros H1 H2. destruct (den_spec a) as (D1 & _ & _); [lia|]. destruct (den_spec b) as (D2 & _ & _); [lia|].
  destruct (prod_spec a) as (P1 & _ & _); [lia|]. destruct (prod_spec b) as (P2 & _ & _); [lia|].
  rewrite D1, D2. apply rnd_le. apply Rplus_le_compat_r. rewrite P1, P2. apply rnd_le.
  pose proof slope_bounds. assert (IZR a <= IZR b) by (apply IZR_le; lia). nra.
Qed.

(** The last average with a positive denominator. *)
Lemma den_last : B2R (b_den 9324556) >= / 1073741824.
Proof.
  assert (E : exists m e, B2SF (b_den 9324556) = S754_finite false m e /\ (e >= -80)%Z /\ (Zpos m >= 2 ^ 50)%Z).
  { eexists. eexists. split; [vm_compute; reflexivity|]. split; lia. }
  destruct E as (m & e & E & He & Hm). rewrite <- SF2R_B2SF, E. cbn [SF2R]. unfold F2R. cbn [Fnum Fexp cond_Zopp].
  assert (Hm' : IZR (Zpos m) >= bpow radix2 50).
  { change (bpow radix2 50) with (IZR (Zpower radix2 50)). apply IZR_ge. exact Hm. }
  assert (He' : bpow radix2 e >= bpow radix2 (-80)) by (apply Rle_ge, bpow_le; lia).
  replace (/ 1073741824) with (bpow radix2 50 * bpow radix2 (-80)).
  2:{ rewrite <- bpow_plus. change (50 + -80)%Z with (- (30))%Z. rewrite bpow_opp. reflexivity. }
  pose proof (bpow_gt_0 radix2 50). pose proof (bpow_gt_0 radix2 (-80)). nra.
Qed.
Lemma den_neg : B2R (b_den 9324557) < 0.
Proof.
  assert (E : exists m e, B2SF (b_den 9324557) = S754_finite true m e).
  { eexists. eexists. vm_compute. reflexivity. }
  destruct E as (m & e & E). rewrite <- SF2R_B2SF, E. cbn [SF2R]. apply F2R_lt_0. reflexivity.
Qed.

Lemma den_neg' : B2R (b_den 9324557) <= - / 1073741824.
Proof.
 assert (E : exists m e, B2SF (b_den 9324557) = S754_finite true m e /\ (e >= -80)%Z /\ (Zpos m >= 2 ^ 50)%Z).
    { eexists. eexists. split; [vm_compute; reflexivity|]. split; lia. }
    destruct E as (m & e & E & He & Hm). rewrite <- SF2R_B2SF, E. cbn [SF2R]. unfold F2R. cbn [Fnum Fexp cond_Zopp].
    assert (Hm' : IZR (Zpos m) >= bpow radix2 50).
    { change (bpow radix2 50) with (IZR (Zpower radix2 50)). apply IZR_ge. exact Hm. }
    assert (He' : bpow radix2 e >= bpow radix2 (-80)) by (apply Rle_ge, bpow_le; lia).
    replace (/ 1073741824) with (bpow radix2 50 * bpow radix2 (-80)).
    2:{ rewrite <- bpow_plus. change (50 + -80)%Z with (- (30))%Z. rewrite bpow_opp. reflexivity. }
    change (Z.neg m) with (- Zpos m)%Z. rewrite opp_IZR.
    pose proof (bpow_gt_0 radix2 50). pose proof (bpow_gt_0 radix2 (-80)). nra. 
Qed.

(** Truncation of finite floats. *)
Lemma pow_bpow e : (0 <= e)%Z -> bpow radix2 e = IZR (2 ^ e).
Proof. intros. rewrite <- IZR_Zpower by assumption. reflexivity. Qed.
Lemma size_pos (z : bf) : is_finite z = true -> 1 <= B2R z < IZR (2 ^ 63) ->
  exists d, size_of_f (B2SF z) = Some d /\ d <> 0%N.
Proof.
  intros F [L U]. destruct z as [s|s| |s m e Hb]; try discriminate F.
  - cbn in L. lra.
  - cbn [B2SF size_of_f]. cbn [B2R] in L, U. unfold F2R in L, U. cbn [Fnum Fexp] in L, U.
    destruct s; cbn [cond_Zopp] in L, U.
    + exfalso. change (Z.neg m) with (- Zpos m)%Z in L. rewrite opp_IZR in L. pose proof (bpow_gt_0 radix2 e).
      assert (0 < IZR (Zpos m)) by (apply IZR_lt; lia). nra.
    + set (t := if (0 <=? e)%Z then _ else _).
      assert (Ht : (1 <= t < 2 ^ 63)%Z).
      { unfold t. destruct (0 <=? e)%Z eqn:He.
        - rewrite pow_bpow in L, U by lia. rewrite <- mult_IZR in L, U. split; [apply le_IZR in L; lia|apply lt_IZR in U; lia].
        - assert (Hp : (0 < 2 ^ (- e))%Z) by (apply Z.pow_pos_nonneg; lia).
          assert (Hr : bpow radix2 e = / IZR (2 ^ (- e))).
          { rewrite <- pow_bpow by lia. rewrite <- bpow_opp. f_equal. lia. }
          assert (Hp' : 0 < IZR (2 ^ (- e))) by (apply IZR_lt; exact Hp).
          rewrite Hr in L, U.
          assert (L' : IZR (2 ^ (- e)) <= IZR (Zpos m)).
          { apply Rmult_le_reg_r with (/ IZR (2 ^ (- e))); [now apply Rinv_0_lt_compat|]. rewrite Rinv_r by lra. exact L. }
          assert (U' : IZR (Zpos m) < IZR (2 ^ 63 * 2 ^ (- e))).
          { rewrite mult_IZR. apply Rmult_lt_reg_r with (/ IZR (2 ^ (- e))); [now apply Rinv_0_lt_compat|].
            rewrite Rmult_assoc, Rinv_r, Rmult_1_r by lra. exact U. }
          apply le_IZR in L'. apply lt_IZR in U'. split.
          + apply Z.div_le_lower_bound; lia.
          + apply Z.div_lt_upper_bound; lia. }
      replace (t <? 18446744073709551616)%Z with true by lia. eexists. split; [reflexivity|]. lia.
Qed.
Lemma size_neg (z : bf) : is_finite z = true -> B2R z <= -1 -> size_of_f (B2SF z) = None.
Proof.
  intros F L. destruct z as [s|s| |s m e Hb]; try discriminate F.
  - cbn in L. lra.
  - cbn [B2SF size_of_f]. cbn [B2R] in L. unfold F2R in L. cbn [Fnum Fexp] in L.
    destruct s; cbn [cond_Zopp] in L.
    + set (t := if (0 <=? e)%Z then _ else _).
      assert (Ht : (1 <= t)%Z).
      { change (Z.neg m) with (- Zpos m)%Z in L. rewrite opp_IZR in L.
        assert (L0 : 1 <= IZR (Zpos m) * bpow radix2 e) by lra. clear L.
        unfold t. destruct (0 <=? e)%Z eqn:He.
        - rewrite pow_bpow in L0 by lia. rewrite <- mult_IZR in L0. apply le_IZR in L0; lia.
        - assert (Hp : (0 < 2 ^ (- e))%Z) by (apply Z.pow_pos_nonneg; lia).
          assert (Hr : bpow radix2 e = / IZR (2 ^ (- e))).
          { rewrite <- pow_bpow by lia. rewrite <- bpow_opp. f_equal. lia. }
          assert (Hp' : 0 < IZR (2 ^ (- e))) by (apply IZR_lt; exact Hp).
          rewrite Hr in L0.
          assert (L' : IZR (2 ^ (- e)) <= IZR (Zpos m)).
          { apply Rmult_le_reg_r with (/ IZR (2 ^ (- e))); [now apply Rinv_0_lt_compat|]. rewrite Rinv_r by lra. exact L0. }
          apply le_IZR in L'. apply Z.div_le_lower_bound; lia. }
      replace (t =? 0)%Z with false by lia. reflexivity.
    + exfalso. pose proof (bpow_gt_0 radix2 e). assert (0 < IZR (Zpos m)) by (apply IZR_lt; lia). nra.
Qed.

Lemma Rinv_1073741824 : 0 < / 1073741824. Proof. lra. Qed.

Lemma discriminator_ok n : (2 <= n <= 9324556)%N -> exists d, discriminator_from_avg n = Some d /\ d <> 0%N.
Proof.
  intros Hn. rewrite disc_B. set (z := Z.of_N n). assert (Hz : (2 <= z <= 9324556)%Z) by lia.
  destruct (den_spec z) as (_ & Fd & _ & Ud); [lia|]. pose proof icept_bounds as Ib.
  pose proof (den_mono z 9324556) as Ld. pose proof den_last as L0. pose proof Rinv_1073741824 as Ri.
  specialize (Ld ltac:(lia) ltac:(lia)).
  destruct (b_of_spec z) as [V F]; [lia|].
  assert (Zb : 2 <= IZR z <= 9324556) by (split; apply IZR_le; lia).
  set (y := B2R (b_den z)) in *. assert (Yp : 0 < y) by lra.
  pose proof (Bdiv_correct 53 1024 Hprec Hmax mode_NE (b_of z) (b_den z)) as C. fold (b_disc z) in C. fold y in C.
  specialize (C ltac:(lra)). cbn [round_mode] in C. rewrite V in C.
  assert (Q1 : 1 <= IZR z / y).
  { apply Rmult_le_reg_r with y; [exact Yp|]. unfold Rdiv. rewrite Rmult_assoc, Rinv_l by lra. lra. }
  (* bound: below 2^62 *)
  assert (Q2 : IZR z / y <= bpow radix2 62).
  { apply Rmult_le_reg_r with y; [exact Yp|]. unfold Rdiv. rewrite Rmult_assoc, Rinv_l, Rmult_1_r by lra.
    replace (bpow radix2 62) with (4294967296 * 1073741824) by (rewrite pow_bpow by lia; change (2 ^ 62)%Z with (4294967296 * 1073741824)%Z; now rewrite mult_IZR).
    assert (1 <= 1073741824 * y).
    { apply Rle_trans with (1073741824 * / 1073741824); [lra|]. apply Rmult_le_compat_l; lra. }
    lra. }
  assert (R1 : 1 <= rnd (IZR z / y)) by (rewrite <- (rnd_Z 1) by lia; apply rnd_le; exact Q1).
  assert (R2 : rnd (IZR z / y) <= bpow radix2 62).
  { rewrite <- (round_generic radix2 (SpecFloat.fexp 53 1024) ZnearestE (bpow radix2 62)); [apply rnd_le, Q2|].
    apply generic_format_bpow. vm_compute. discriminate. }
  rewrite Rlt_bool_true in C.
  - destruct C as (C1 & C2 & _). apply size_pos; [rewrite C2; exact F|]. rewrite C1. split; [exact R1|].
    eapply Rle_lt_trans; [exact R2|]. rewrite pow_bpow by lia. apply IZR_lt. reflexivity.
  - rewrite Rabs_pos_eq by lra. eapply Rle_lt_trans; [exact R2|]. apply bpow_lt. reflexivity.
Qed.

Lemma discriminator_large n : (9324557 <= n < 4294967296)%N -> discriminator_from_avg n = None.
Proof.
  intros Hn. rewrite disc_B. set (z := Z.of_N n). assert (Hz : (9324557 <= z < 4294967296)%Z) by lia.
  destruct (den_spec z) as (_ & Fd & Ld & Ud); [lia|].
  pose proof (den_mono 9324557 z) as Lm. pose proof den_neg as L0. specialize (Lm ltac:(lia) ltac:(lia)).
  destruct (b_of_spec z) as [V F]; [lia|].
  assert (Zb : 9324557 <= IZR z <= 4294967296) by (split; apply IZR_le; lia).
  set (y := B2R (b_den z)) in *. assert (Yp : y < 0) by lra.
  (* the denominator is a multiple of 2^-1074, but a cheap bound on the quotient is enough *)
  pose proof (Bdiv_correct 53 1024 Hprec Hmax mode_NE (b_of z) (b_den z)) as C. fold (b_disc z) in C. fold y in C.
  specialize (C ltac:(lra)). cbn [round_mode] in C. rewrite V in C.
  pose proof den_neg' as E0.
  assert (Y2 : y <= - / 1073741824) by lra.
  assert (Q1 : IZR z / y <= -1).
  { unfold Rdiv. apply Rmult_le_reg_r with (- y); [lra|]. rewrite Rmult_assoc.
    replace (/ y * - y) with (-1) by (field; lra). lra. }
  assert (Q2 : - bpow radix2 62 <= IZR z / y).
  { apply Rmult_le_reg_r with (- y); [lra|]. unfold Rdiv. rewrite Rmult_assoc. replace (/ y * - y) with (-1) by (field; lra).
    replace (bpow radix2 62) with (4294967296 * 1073741824) by (rewrite pow_bpow by lia; change (2 ^ 62)%Z with (4294967296 * 1073741824)%Z; now rewrite mult_IZR).
    assert (1 <= 1073741824 * - y).
    { apply Rle_trans with (1073741824 * / 1073741824); [lra|]. apply Rmult_le_compat_l; lra. }
    lra. }
  assert (R1 : rnd (IZR z / y) <= -1) by (rewrite <- (rnd_Z (-1)) by lia; apply rnd_le; exact Q1).
  assert (R2 : - bpow radix2 62 <= rnd (IZR z / y)).
  { rewrite <- (round_generic radix2 (SpecFloat.fexp 53 1024) ZnearestE (bpow radix2 62)) at 1.
    - rewrite <- round_NE_opp. apply rnd_le. exact Q2.
    - apply generic_format_bpow. vm_compute. discriminate. }
  rewrite Rlt_bool_true in C.
  - destruct C as (C1 & C2 & _). apply size_neg; [rewrite C2; exact F|]. now rewrite C1.
  - rewrite Rabs_left by lra. apply Rle_lt_trans with (bpow radix2 62); [lra|]. apply bpow_lt. reflexivity.
Qed.
