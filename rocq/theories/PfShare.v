(** The percentage that patchdd prints, in binary64 arithmetic (C100). *)
From Coq Require Import ZArith NArith Reals Lra Lia.
From Coq Require Import Floats.SpecFloat.
From Flocq Require Import Core BinarySingleNaN Relative.
From Verif Require Import Base Log Discr PfDiscr SpecClosing Closing.
Local Open Scope R_scope.
#[local] Existing Instance Hprec.
#[local] Existing Instance Hmax.
#[local] Existing Instance fexp_valid.

Definition u : R := / 9007199254740992.
Lemma u_val : / 2 * bpow radix2 (- (53) + 1) = u.
Proof. unfold u. change (- (53) + 1)%Z with (- (52))%Z. rewrite bpow_opp. change (bpow radix2 52) with (IZR (Zpower radix2 52)). change (Zpower radix2 52) with 4503599627370496%Z. lra. Qed.
Lemma rnd_near x : bpow radix2 (-1000) <= x -> (1 - u) * x <= rnd x <= (1 + u) * x.
Proof.
  intros H. pose proof (bpow_gt_0 radix2 (-1000)). pose proof (relative_error_N_FLT radix2 (3 - 1024 - 53) 53 eq_refl (fun x => negb (Z.even x)) x) as R.
  rewrite Rabs_pos_eq in R by lra. specialize (R ltac:(eapply Rle_trans; [apply bpow_le|exact H]; lia)). rewrite u_val in R. apply Rabs_le_inv in R.
  change (round radix2 (FLT_exp (3 - 1024 - 53) 53) (Znearest (fun x => negb (Z.even x))) x) with (rnd x) in R. lra.
Qed.
Lemma rnd_range x : 0 <= x <= bpow radix2 100 -> 0 <= rnd x <= bpow radix2 100 /\ Rlt_bool (Rabs (rnd x)) (bpow radix2 1024) = true.
Proof.
  intros H. assert (A : 0 <= rnd x <= bpow radix2 100).
  { split; [rewrite <- (rnd_Z 0) by lia; now apply rnd_le|]. rewrite <- (round_generic radix2 (SpecFloat.fexp 53 1024) ZnearestE (bpow radix2 100)); [now apply rnd_le|].
    apply generic_format_bpow. cbn. lia. }
  split; [exact A|]. apply Rlt_bool_true. rewrite Rabs_pos_eq by lra. eapply Rle_lt_trans; [apply A|]. apply bpow_lt. lia.
Qed.
Lemma b_of_big n : (0 <= n < 2 ^ 63)%Z -> B2R (b_of n) = rnd (IZR n) /\ is_finite (b_of n) = true.
Proof.
  intros H. pose proof (binary_normalize_correct 53 1024 Hprec Hmax mode_NE n 0 false) as C. cbv zeta in C. unfold F2R in C. cbn [Fnum Fexp bpow round_mode] in C. rewrite Rmult_1_r in C.
  change (IZR (Z.pow_pos radix2 1024)) with (bpow radix2 1024) in C. rewrite (proj2 (rnd_range (IZR n) ltac:(split; [apply IZR_le; lia|change (bpow radix2 100) with (IZR (2 ^ 100)); apply IZR_le; lia]))) in C. tauto.
Qed.

(** ** Two decimals *)
Lemma hundredths_near m e : Rabs (IZR (hundredths m e) - 100 * (IZR (Zpos m) * bpow radix2 e)) <= / 2.
Proof.
  unfold hundredths. destruct (Z.leb_spec 0 e) as [He|He].
  - rewrite pow_bpow by exact He. rewrite !mult_IZR. replace (_ - _) with 0 by ring. rewrite Rabs_R0. lra.
  - set (d := (2 ^ (- e))%Z). assert (Hd : (0 < d)%Z) by (apply Z.pow_pos_nonneg; lia). assert (Hd' : 0 < IZR d) by (apply IZR_lt; exact Hd).
    assert (Hr : bpow radix2 e = / IZR d) by (unfold d; rewrite <- pow_bpow by lia; rewrite <- bpow_opp; f_equal; lia). rewrite Hr. cbv zeta.
    set (q := (100 * Z.pos m / d)%Z). set (r := (100 * Z.pos m mod d)%Z). pose proof (Z_div_mod_eq_full (100 * Z.pos m) d) as Em. fold q r in Em. pose proof (Z.mod_pos_bound (100 * Z.pos m) d Hd) as Rb. fold r in Rb.
    set (h := if (2 * r <? d)%Z then _ else _). assert (Hh : (Z.abs (2 * (h * d - 100 * Z.pos m)) <= d)%Z).
    { unfold h. destruct (Z.ltb_spec (2 * r) d); [|destruct (Z.ltb_spec d (2 * r)); [|destruct (Z.even q)]]; rewrite Em; apply Z.abs_le; lia. }
    replace (IZR h - 100 * (IZR (Z.pos m) * / IZR d)) with ((IZR (h * d - 100 * Z.pos m)) * / IZR d) by (rewrite minus_IZR, !mult_IZR; field; lra).
    apply IZR_le in Hh. rewrite abs_IZR, mult_IZR, Rabs_mult, (Rabs_pos_eq (IZR 2)) in Hh by lra. rewrite Rabs_mult, (Rabs_pos_eq (/ IZR d)) by (left; now apply Rinv_0_lt_compat).
    apply Rmult_le_reg_r with (IZR d); [exact Hd'|]. rewrite Rmult_assoc, Rinv_l by lra. lra.
Qed.
Lemma hundredths_pos m e : (0 <= hundredths m e)%Z.
Proof.
  unfold hundredths. destruct (Z.leb_spec 0 e) as [He|He]; [apply Z.mul_nonneg_nonneg; [lia|apply Z.pow_nonneg; lia]|]. cbv zeta.
  assert (Hd : (0 < 2 ^ (- e))%Z) by (apply Z.pow_pos_nonneg; lia). pose proof (Z.div_pos (100 * Z.pos m) _ ltac:(lia) Hd) as P. destruct (_ <? _)%Z; [exact P|]. destruct (_ <? _)%Z; [lia|]. destruct (Z.even _); lia.
Qed.
Lemma fixed2_pos (z : bf) : is_finite z = true -> 0 < B2R z -> exists h, fixed2 (B2SF z) = two_decimals h /\ Rabs (IZR (Z.of_N h) - 100 * B2R z) <= / 2.
Proof.
  intros F P. destruct z as [s|s| |s m e Hb]; try discriminate F; [cbn in P; lra|]. cbn [B2R] in P. destruct s.
  { exfalso. assert (X : F2R (Float radix2 (cond_Zopp true (Z.pos m)) e) < 0) by (apply F2R_lt_0; reflexivity). lra. }
  exists (Z.to_N (hundredths m e)). split; [reflexivity|]. rewrite Z2N.id by apply hundredths_pos. cbn [B2R]. unfold F2R. cbn [Fnum Fexp cond_Zopp]. apply hundredths_near.
Qed.

(** ** The share *)
Definition b_share (t s : Z) : bf := Bdiv mode_NE (Bmult mode_NE (b_of 100) (b_of t)) (b_of s).
Lemma share_B t s : patchdd_share t s = B2SF (b_share (Z.of_N t) (Z.of_N s)).
Proof. unfold patchdd_share, b_share, b_of, f_of_N, fprec, femax. rewrite <- SFdiv_B, <- SFmul_B, <- !binary_normalize_equiv. reflexivity. Qed.
Lemma bpow1000_small : bpow radix2 (-1000) <= bpow radix2 (-64). Proof. apply bpow_le. lia. Qed.
Lemma bpow64 : bpow radix2 (-64) = / 18446744073709551616.
Proof. change (-64)%Z with (- (64))%Z. rewrite bpow_opp. f_equal. Qed.
Lemma bpow100 : bpow radix2 100 = 1267650600228229401496703205376.
Proof. change (bpow radix2 100) with (IZR (Zpower radix2 100)). f_equal. Qed.
Lemma share_spec t s : (0 < t <= s)%Z -> (s < 2 ^ 63)%Z -> is_finite (b_share t s) = true /\ 0 < B2R (b_share t s) /\
  Rabs (B2R (b_share t s) * IZR s - 100 * IZR t) <= 100 * IZR t * / 1000000000.
Proof.
  intros Ht Hs. destruct (b_of_big t ltac:(lia)) as (T1 & T2). destruct (b_of_big s ltac:(lia)) as (S1 & S2). destruct (b_of_big 100 ltac:(lia)) as (H1 & H2). rewrite rnd_Z in H1 by lia.
  assert (t1 : 1 <= IZR t <= IZR s) by (split; apply IZR_le; lia). assert (s1 : IZR s <= 9223372036854775808) by (apply IZR_le; lia).
  pose proof bpow1000_small as B0. rewrite bpow64 in B0. pose proof bpow100 as B1.
  pose proof (rnd_near (IZR t) ltac:(lra)) as Tn. pose proof (rnd_near (IZR s) ltac:(lra)) as Sn. rewrite <- T1 in Tn. rewrite <- S1 in Sn.
  set (T := B2R (b_of t)) in *. set (S := B2R (b_of s)) in *. unfold u in *.
  assert (Tb : / 2 <= T <= 2 * IZR t) by lra. assert (Sb : / 2 <= S <= 2 * IZR s) by lra.
  pose proof (Bmult_correct 53 1024 Hprec Hmax mode_NE (b_of 100) (b_of t)) as C. cbn [round_mode] in C. rewrite H1 in C. fold T in C.
  rewrite (proj2 (rnd_range (100 * T) ltac:(lra))) in C. destruct C as (P1 & P2 & _). rewrite H2, T2 in P2. pose proof (rnd_near (100 * T) ltac:(lra)) as Pn. unfold u in Pn. rewrite <- P1 in Pn.
  set (p := Bmult mode_NE (b_of 100) (b_of t)) in *. set (P := B2R p) in *.
  assert (Pb : 1 <= P <= 400 * IZR t) by lra.
  pose proof (Bdiv_correct 53 1024 Hprec Hmax mode_NE p (b_of s)) as D. cbn [round_mode] in D. fold P S in D. specialize (D ltac:(lra)).
  assert (Q0 : P / S * S = P) by (field; lra). assert (Q1 : 0 < P / S) by (apply Rdiv_lt_0_compat; lra). set (Q := P / S) in *.
  assert (Q2 : / 18446744073709551616 <= Q).
  { apply Rmult_le_reg_r with S; [lra|]. rewrite Q0. lra. }
  assert (Q3 : Q <= 7378697629483820646400).
  { apply Rmult_le_reg_r with S; [lra|]. rewrite Q0. lra. }
  rewrite (proj2 (rnd_range Q ltac:(lra))) in D. destruct D as (X1 & X2 & _). rewrite P2 in X2. change (Bdiv mode_NE p (b_of s)) with (b_share t s) in X1, X2.
  pose proof (rnd_near Q ltac:(lra)) as Qn. rewrite <- X1 in Qn. unfold u in Qn. set (X := B2R (b_share t s)) in *. split; [exact X2|]. split; [lra|].
  assert (XS : (1 - / 9007199254740992) * P <= X * S <= (1 + / 9007199254740992) * P) by (rewrite <- Q0; split; nra).
  assert (Xs : X * S <= (1 + / 9007199254740992) * (X * IZR s) /\ (1 - / 9007199254740992) * (X * IZR s) <= X * S) by (split; nra).
  set (Y := X * IZR s) in *. apply Rabs_le. split; lra.
Qed.
Lemma share_zero s : (0 < s)%N -> (s < 9223372036854775808)%N -> fixed2 (patchdd_share 0 s) = two_decimals 0.
Proof.
  intros H1 H2. rewrite share_B. unfold b_share. destruct (b_of_big (Z.of_N s) ltac:(lia)) as (S1 & S2).
  assert (P : 0 < B2R (b_of (Z.of_N s))).
  { rewrite S1. assert (1 <= IZR (Z.of_N s)) by (apply IZR_le; lia). pose proof (rnd_le 1 (IZR (Z.of_N s)) ltac:(lra)) as R. rewrite (rnd_Z 1) in R by lia. lra. }
  destruct (b_of (Z.of_N s)) as [sg|sg| |sg m e Hb]; try discriminate S2; [cbn in P; lra|]. destruct sg.
  { exfalso. cbn [B2R] in P. assert (X : F2R (Float radix2 (cond_Zopp true (Z.pos m)) e) < 0) by (apply F2R_lt_0; reflexivity). lra. }
  rewrite <- SFdiv_B, <- SFmul_B. vm_compute. reflexivity.
Qed.
Lemma share_text t s : (t <= s)%N -> (0 < s)%N -> (s < 9223372036854775808)%N ->
  exists h, fixed2 (patchdd_share t s) = two_decimals h /\ (h <= 10000)%N /\ (100 * Z.abs (Z.of_N h * Z.of_N s - 10000 * Z.of_N t) <= 51 * Z.of_N s)%Z.
Proof.
  intros H1 H2 H3. destruct (N.eq_dec t 0) as [->|Hne].
  { exists 0%N. split; [now apply share_zero|]. split; lia. }
  destruct (share_spec (Z.of_N t) (Z.of_N s)) as (F & P & B); [lia|lia|]. rewrite share_B. destruct (fixed2_pos _ F P) as (h & E & Hh). exists h. split; [exact E|].
  set (X := B2R (b_share (Z.of_N t) (Z.of_N s))) in *. assert (Ht : 1 <= IZR (Z.of_N t) <= IZR (Z.of_N s)) by (split; apply IZR_le; lia).
  apply Rabs_le_inv in B. apply Rabs_le_inv in Hh. set (Y := X * IZR (Z.of_N s)) in *.
  assert (HY : Rabs (IZR (Z.of_N h) * IZR (Z.of_N s) - 100 * Y) <= / 2 * IZR (Z.of_N s)).
  { replace (_ - _) with ((IZR (Z.of_N h) - 100 * X) * IZR (Z.of_N s)) by (unfold Y; ring). rewrite Rabs_mult, (Rabs_pos_eq (IZR (Z.of_N s))) by lra. apply Rmult_le_compat_r; [lra|]. now apply Rabs_le. }
  apply Rabs_le_inv in HY. rewrite <- mult_IZR in HY.
  assert (Up : 100 * IZR (Z.of_N h * Z.of_N s - 10000 * Z.of_N t) <= 51 * IZR (Z.of_N s)) by (rewrite minus_IZR, (mult_IZR 10000); lra).
  assert (Lo : - (51 * IZR (Z.of_N s)) <= 100 * IZR (Z.of_N h * Z.of_N s - 10000 * Z.of_N t)) by (rewrite minus_IZR, (mult_IZR 10000); lra).
  rewrite <- !mult_IZR in Up, Lo. rewrite <- opp_IZR in Lo. apply le_IZR in Up. apply le_IZR in Lo. split; [|lia]. nia.
Qed.
(** An empty source. *)
Lemma share_empty : fixed2 (patchdd_share 0 0) = bs "nan". Proof. vm_compute. reflexivity. Qed.
