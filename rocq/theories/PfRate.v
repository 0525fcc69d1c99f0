(** The rate that csn-bench prints, in binary64 arithmetic (C109). *)
From Coq Require Import ZArith NArith Reals Lra Lia.
From Coq Require Import Floats.SpecFloat.
From Flocq Require Import Core BinarySingleNaN Relative.
From Verif Require Import Base Log Discr PfDiscr SpecClosing Closing PfShare Rate SpecRate.
Local Open Scope R_scope.
#[local] Existing Instance Hprec.
#[local] Existing Instance Hmax.
#[local] Existing Instance fexp_valid.

(** [a] is positive and [b] up to the share [e] of [b] *)
Definition near (e a b : R) : Prop := 0 < b /\ (1 - e) * b <= a <= (1 + e) * b.
Lemma near_pos e a b : e <= / 4 -> near e a b -> 0 < a.
Proof. intros He (H & A & _). nra. Qed.
Lemma near_step e1 e2 a b c : 0 <= e1 <= / 4 -> 0 <= e2 <= / 4 -> near e1 a b -> near e2 b c -> near (e1 + 2 * e2) a c.
Proof. intros H1 H2 (Hb & A1 & A2) (Hc & B1 & B2). split; [exact Hc|]. assert (0 <= e1 * e2 <= / 4 * e2) by nra. split; nra. Qed.
Lemma near_mult e1 e2 a b c d : 0 <= e1 <= / 4 -> 0 <= e2 <= / 4 -> near e1 a b -> near e2 c d -> near (2 * e1 + 2 * e2) (a * c) (b * d).
Proof.
  intros H1 H2 (Hb & A1 & A2) (Hd & B1 & B2). assert (0 < b * d) by nra. split; [assumption|].
  assert (0 <= e1 * e2 <= / 4 * e2) by nra. assert (0 < a) by nra. assert (0 < c) by nra. split.
  - apply Rle_trans with ((1 - e1) * b * ((1 - e2) * d)); [|apply Rmult_le_compat; nra].
    replace ((1 - e1) * b * ((1 - e2) * d)) with ((1 - e1 - e2 + e1 * e2) * (b * d)) by ring. apply Rmult_le_compat_r; lra.
  - apply Rle_trans with ((1 + e1) * b * ((1 + e2) * d)); [apply Rmult_le_compat; nra|].
    replace ((1 + e1) * b * ((1 + e2) * d)) with ((1 + e1 + e2 + e1 * e2) * (b * d)) by ring. apply Rmult_le_compat_r; lra.
Qed.
Lemma near_inv e c d : 0 <= e <= / 4 -> near e c d -> near (2 * e) (/ c) (/ d).
Proof.
  intros He (Hd & B1 & B2). assert (Hc : 0 < c) by nra. pose proof (Rinv_0_lt_compat d Hd) as Hi. pose proof (Rinv_0_lt_compat c Hc) as Hj. split; [exact Hi|].
  assert (I1 : / c * c = 1) by (field; lra). assert (I2 : / d * d = 1) by (field; lra). split.
  - apply Rmult_le_reg_r with (c * d); [nra|]. replace (/ c * (c * d)) with d by (field; lra). replace ((1 - 2 * e) * / d * (c * d)) with ((1 - 2 * e) * c) by (field; lra). nra.
  - apply Rmult_le_reg_r with (c * d); [nra|]. replace (/ c * (c * d)) with d by (field; lra). replace ((1 + 2 * e) * / d * (c * d)) with ((1 + 2 * e) * c) by (field; lra).
    apply Rle_trans with ((1 + 2 * e) * ((1 - e) * d)); [|apply Rmult_le_compat_l; lra]. assert (0 <= e * d) by nra. assert (0 <= e * (e * d) <= / 4 * (e * d)) by (split; [nra|apply Rmult_le_compat_r; lra]).
    replace ((1 + 2 * e) * ((1 - e) * d)) with (d + e * d - 2 * (e * (e * d))) by ring. lra.
Qed.
Lemma near_div e1 e2 a b c d : 0 <= e1 <= / 8 -> 0 <= e2 <= / 8 -> near e1 a b -> near e2 c d -> near (2 * e1 + 4 * e2) (a / c) (b / d).
Proof. intros H1 H2 A B. replace (2 * e1 + 4 * e2) with (2 * e1 + 2 * (2 * e2)) by ring. apply near_mult; [lra|lra|exact A|]. apply near_inv; [lra|exact B]. Qed.

(** ** The operations *)
Definition ok (z : bf) (e x : R) : Prop := is_finite z = true /\ near e (B2R z) x.
Lemma u_small : 0 < u <= / 9007199254740992. Proof. unfold u. lra. Qed.
Lemma ok_Z n : (0 < n < 2 ^ 63)%Z -> ok (b_of n) u (IZR n).
Proof.
  intros H. destruct (b_of_big n ltac:(lia)) as (A & B). split; [exact B|]. assert (1 <= IZR n) by (apply IZR_le; lia). pose proof bpow1000_small as B0. rewrite bpow64 in B0.
  split; [lra|]. rewrite A. apply rnd_near. lra.
Qed.
Definition small (x : R) : Prop := / 1267650600228229401496703205376 <= x <= 1267650600228229401496703205376 / 2.
Lemma small_min x e y : 0 <= e <= / 4 -> near e y x -> small x -> bpow radix2 (-1000) <= y /\ 0 <= y <= bpow radix2 100.
Proof.
  intros He (H & A1 & A2) (S1 & S2). assert (B0 : bpow radix2 (-1000) <= / 2 * / 1267650600228229401496703205376).
  { replace (/ 2 * / 1267650600228229401496703205376) with (bpow radix2 (-101)); [apply bpow_le; lia|]. change (-101)%Z with (- (101))%Z. rewrite bpow_opp.
    change (bpow radix2 101) with (IZR (Zpower radix2 101)). change (Zpower radix2 101) with (2535301200456458802993406410752)%Z. lra. }
  rewrite bpow100. assert (3 / 4 * x <= y <= 5 / 4 * x) by nra. lra.
Qed.
Lemma ok_mult a b e1 e2 x y : 0 <= e1 <= / 100 -> 0 <= e2 <= / 100 -> ok a e1 x -> ok b e2 y -> small (x * y) -> ok (Bmult mode_NE a b) (u + 2 * (2 * e1 + 2 * e2)) (x * y).
Proof.
  intros H1 H2 (Fa & A) (Fb & B) S. pose proof (near_mult e1 e2 _ _ _ _ ltac:(lra) ltac:(lra) A B) as M. destruct (small_min _ (2 * e1 + 2 * e2) _ ltac:(lra) M S) as (L & R).
  pose proof (Bmult_correct 53 1024 Hprec Hmax mode_NE a b) as C. cbn [round_mode] in C. rewrite (proj2 (rnd_range _ R)) in C. destruct C as (P1 & P2 & _). rewrite Fa, Fb in P2. split; [exact P2|].
  pose proof u_small. rewrite P1. apply near_step with (B2R a * B2R b); [lra|lra| |exact M]. split; [apply (near_pos (2 * e1 + 2 * e2) _ _ ltac:(lra) M)|]. apply rnd_near. exact L.
Qed.
Lemma ok_div a b e1 e2 x y : 0 <= e1 <= / 100 -> 0 <= e2 <= / 100 -> ok a e1 x -> ok b e2 y -> small (x / y) -> ok (Bdiv mode_NE a b) (u + 2 * (2 * e1 + 4 * e2)) (x / y).
Proof.
  intros H1 H2 (Fa & A) (Fb & B) S. pose proof (near_div e1 e2 _ _ _ _ ltac:(lra) ltac:(lra) A B) as M. destruct (small_min _ (2 * e1 + 4 * e2) _ ltac:(lra) M S) as (L & R).
  pose proof (near_pos e2 _ _ ltac:(lra) B) as Pb.
  pose proof (Bdiv_correct 53 1024 Hprec Hmax mode_NE a b ltac:(lra)) as C. cbn [round_mode] in C. rewrite (proj2 (rnd_range _ R)) in C. destruct C as (P1 & P2 & _). rewrite Fa in P2. split; [exact P2|].
  pose proof u_small. rewrite P1. apply near_step with (B2R a / B2R b); [lra|lra| |exact M]. split; [apply (near_pos (2 * e1 + 4 * e2) _ _ ltac:(lra) M)|]. apply rnd_near. exact L.
Qed.
Lemma ok_weak z e e' x : e <= e' -> ok z e x -> ok z e' x.
Proof. intros H (F & P & A). split; [exact F|]. split; [exact P|]. nra. Qed.

(** ** The rate *)
Definition b_rate (c s m : Z) : bf :=
  Bdiv mode_NE (Bdiv mode_NE (Bdiv mode_NE (Bmult mode_NE (b_of c) (b_of s)) (Bdiv mode_NE (b_of m) (b_of 1000))) (b_of 1024)) (b_of 1024).
Lemma rate_B c s m : bench_rate c s m = B2SF (b_rate (Z.of_N c) (Z.of_N s) (Z.of_N m)).
Proof. unfold bench_rate, b_rate, b_of, f_of_N, fprec, femax. cbv zeta. rewrite <- !SFdiv_B, <- SFmul_B, <- !binary_normalize_equiv. reflexivity. Qed.

Lemma rate_spec c s m : (0 < c)%Z -> (0 < s)%Z -> (c * s < 2 ^ 63)%Z -> (0 < m < 2 ^ 63)%Z ->
  ok (b_rate c s m) (/ 1000000000) (IZR c * IZR s / (IZR m / 1000) / 1024 / 1024).
Proof.
  intros Hc Hs Hcs Hm. assert (c < 2 ^ 63 /\ s < 2 ^ 63)%Z as (Hc' & Hs') by nia. pose proof u_small as U.
  assert (c1 : 1 <= IZR c) by (apply IZR_le; lia). assert (s1 : 1 <= IZR s) by (apply IZR_le; lia). assert (p1 : IZR c * IZR s <= 9223372036854775808) by (rewrite <- mult_IZR; apply IZR_le; lia).
  assert (m1 : 1 <= IZR m <= 9223372036854775808) by (split; apply IZR_le; lia). assert (p0 : 1 <= IZR c * IZR s) by nra.
  set (p := IZR c * IZR s) in *.
  assert (K1 : ok (b_of 1000) u 1000) by (apply ok_Z; lia). assert (K2 : ok (b_of 1024) u 1024) by (apply ok_Z; lia).
  assert (M1 : ok (Bmult mode_NE (b_of c) (b_of s)) (9 * u) p).
  { eapply ok_weak; [|apply ok_mult with (e1 := u) (e2 := u); [lra|lra|apply ok_Z; lia|apply ok_Z; lia|fold p; unfold small; lra]]. lra. }
  assert (D1 : ok (Bdiv mode_NE (b_of m) (b_of 1000)) (13 * u) (IZR m / 1000)).
  { eapply ok_weak; [|apply ok_div with (e1 := u) (e2 := u); [lra|lra|apply ok_Z; lia|exact K1|unfold small; lra]]. lra. }
  assert (q0 : IZR m / 1000 * (p / (IZR m / 1000)) = p) by (field; lra). assert (qp : 0 < p / (IZR m / 1000)) by (apply Rdiv_lt_0_compat; lra). set (q := p / (IZR m / 1000)) in *.
  assert (q1 : / 18446744073709551616 <= q <= 18446744073709551616000) by (split; nra).
  assert (D2 : ok (Bdiv mode_NE (Bmult mode_NE (b_of c) (b_of s)) (Bdiv mode_NE (b_of m) (b_of 1000))) (150 * u) q).
  { eapply ok_weak; [|apply ok_div with (e1 := 9 * u) (e2 := 13 * u); [lra|lra|exact M1|exact D1|fold q; unfold small; lra]]. lra. }
  assert (D3 : ok (Bdiv mode_NE (Bdiv mode_NE (Bmult mode_NE (b_of c) (b_of s)) (Bdiv mode_NE (b_of m) (b_of 1000))) (b_of 1024)) (700 * u) (q / 1024)).
  { eapply ok_weak; [|apply ok_div with (e1 := 150 * u) (e2 := u); [lra|lra|exact D2|exact K2|unfold small; lra]]. lra. }
  unfold b_rate. eapply ok_weak; [|apply ok_div with (e1 := 700 * u) (e2 := u); [lra|lra|exact D3|exact K2|unfold small; lra]]. lra.
Qed.

Lemma rate_text c s m : (0 < c)%N -> (0 < s)%N -> (c * s < 2 ^ 63)%N -> (0 < m < 2 ^ 63)%N -> exists h, bench_line c s m = bench_text c m h /\ rate_of (c * s) m h.
Proof.
  intros Hc Hs Hcs Hm. change (2 ^ 63)%N with 9223372036854775808%N in *.
  destruct (rate_spec (Z.of_N c) (Z.of_N s) (Z.of_N m)) as (F & P & B); [lia|lia|lia|lia|]. set (X := B2R _) in *. set (q := _ / 1024 / 1024) in *.
  destruct (fixed2_pos _ F ltac:(fold X; lra)) as (h & E & Hh). fold X in Hh. exists h. split; [unfold bench_line, bench_text; now rewrite rate_B, E|].
  unfold rate_of. cbv zeta. set (e := (100 * 1000 * Z.of_N (c * s))%Z). set (v := (Z.of_N m * 1048576)%Z).
  assert (Hv : 1 <= IZR v) by (apply IZR_le; unfold v; lia).
  assert (Q : 100 * q * IZR v = IZR e).
  { unfold q, v, e. rewrite N2Z.inj_mul, !mult_IZR. assert (1 <= IZR (Z.of_N m)) by (apply IZR_le; lia). field. lra. }
  apply Rabs_le_inv in Hh. assert (Hh' : - (/ 2 + 100 * q * / 1000000000) <= IZR (Z.of_N h) - 100 * q <= / 2 + 100 * q * / 1000000000) by lra.
  assert (W : Rabs (IZR (Z.of_N h * v - e)) <= / 2 * IZR v + / 1000000000 * IZR e).
  { rewrite minus_IZR, mult_IZR, <- Q. replace (IZR (Z.of_N h) * IZR v - 100 * q * IZR v) with ((IZR (Z.of_N h) - 100 * q) * IZR v) by ring.
    rewrite Rabs_mult, (Rabs_pos_eq (IZR v)) by lra. replace (/ 2 * IZR v + / 1000000000 * (100 * q * IZR v)) with ((/ 2 + 100 * q * / 1000000000) * IZR v) by ring.
    apply Rmult_le_compat_r; [lra|]. apply Rabs_le. exact Hh'. }
  apply le_IZR. rewrite plus_IZR, !mult_IZR, abs_IZR. lra.
Qed.
