(** Specification of the closing lines of csn and patchdd (C100). *)
From Verif Require Import Base Bench SpecBench Log.
Local Open Scope N_scope.

(** The first [p] bytes of [a] and [b], which have the same length, agree, and no more. *)
Definition common (a b : bytes) (p : nat) : Prop :=
  (p <= length a)%nat /\ firstn p a = firstn p b /\ ((p < length a)%nat -> nth_error a p <> nth_error b p).
(** The [n] bytes at [off]. *)
Definition part_of (off n : N) (f : bytes) : bytes := slice (N.to_nat off) (N.to_nat n) f.
(** [total] bytes of the source [s] are at the fronts of their blocks of 1 MiB, from offset [off] on, as in the destination [d]. *)
Inductive kept (s d : bytes) : N -> N -> Prop :=
  | kept_end off : blen s <= off -> kept s d off 0
  | kept_block off n p total : off < blen s -> n = N.min (blen s - off) 1048576 -> common (part_of off n s) (part_of off n d) p ->
      kept s d (off + n) total -> kept s d off (N.of_nat p + total).

(** Readings of a clock, one after the other. *)
Definition not_before (a b : timespec) : Prop := (0 <= elapsed_ns a b)%Z.
(** [n] seconds are reported for what took from [a] to [b]: off by less than a second. *)
Definition about (n : N) (a b : timespec) : Prop := (Z.abs (1000000000 * Z.of_N n - elapsed_ns a b) < 1000000000)%Z.

(** A number of hundredths with two decimals. *)
Definition two_decimals (h : N) : bytes := digits 10 (h / 100) ++ bs "." ++ [48 + h mod 100 / 10; 48 + h mod 10].
(** What patchdd prints about [n] seconds, [skipped] bytes and [h] hundredths of a percent. *)
Definition patchdd_text (n skipped h : N) : bytes :=
  bs "synchronization finished after " ++ digits 10 n ++ bs " seconds" ++ NL ++
  bs "skipped a total of " ++ digits 10 skipped ++ bs " bytes (" ++ two_decimals h ++ bs "% of the input)" ++ NL.
(** [h] is the share of [a] in [b] in hundredths of a percent, rounded. *)
Definition share_of (a b h : N) : Prop := h <= 10000 /\ (100 * Z.abs (Z.of_N h * Z.of_N b - 10000 * Z.of_N a) <= 51 * Z.of_N b)%Z.
(** What csn logs about a run. *)
Definition run_texts (n1 n2 skipped : N) : list bytes :=
  [bs "init finished after " ++ digits 10 n1 ++ bs " seconds"; bs "starting synchronization"; bs "synchronization finished after " ++ digits 10 n2 ++ bs " seconds"] ++
  (if 0 <? skipped then [bs "skipped prefix of " ++ digits 10 skipped ++ bs " chunks"] else []).
