(** Model of the discriminator computation of /repo/chunker.c:110, in IEEE 754
    binary64 arithmetic with round-to-nearest-even (the evaluation method of
    the supported platforms; no fused multiply-add contraction).  The
    floating-point operations are those of the standard library's [SpecFloat]. *)
From Coq Require Import ZArith NArith.
From Coq Require Import Floats.SpecFloat.
Local Open Scope Z_scope.

Definition fprec : Z := 53.
Definition femax : Z := 1024.

(** (double)n for a uint32_t/size_t n *)
Definition f_of_N (n : N) : spec_float := binary_normalize fprec femax (Z.of_N n) 0 false.

(** The literals -1.42888852e-7 and 1.33237515 rounded to binary64:
    -0x1.32d9fa24fb14ap-23 (= -2699094101842085 * 2^-74) and
    0x1.551689af40cadp+0 (= 6000484229057709 * 2^-52). *)
Definition f_slope : spec_float := binary_normalize fprec femax (-2699094101842085) (-74) true.
Definition f_icept : spec_float := binary_normalize fprec femax 6000484229057709 (-52) false.

(** Conversion of a double to size_t: truncation towards zero; undefined
    ([None]) if the result is not representable. *)
Definition size_of_f (x : spec_float) : option N :=
  match x with
  | S754_zero _ => Some 0%N
  | S754_finite s m e =>
      let t := if 0 <=? e then Zpos m * 2 ^ e else Zpos m / 2 ^ (- e) in
      if s then (if t =? 0 then Some 0%N else None)
      else if t <? 18446744073709551616 then Some (Z.to_N t) else None
  | _ => None
  end.

(** chunker.c:110 [CA_CHUNKER_DISCRIMINATOR_FROM_AVG] *)
Definition discriminator_from_avg (avg : N) : option N :=
  let a := f_of_N avg in
  size_of_f (SFdiv fprec femax a
              (SFadd fprec femax (SFmul fprec femax f_slope a) f_icept)).
