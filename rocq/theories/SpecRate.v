(** Specification of the figures of csn-bench (C109). *)
From Verif Require Import Base Bench SpecBench Log SpecClosing.
Local Open Scope N_scope.

(** [h] hundredths of a MiB per second are reported for [bytes] bytes in [ms] milliseconds: rounded to the nearest
    hundredth, up to one part in a thousand million of the value. *)
Definition rate_of (bytes ms h : N) : Prop :=
  let exact := (100 * 1000 * Z.of_N bytes)%Z in let unit := (Z.of_N ms * 1048576)%Z in
  (2000000000 * Z.abs (Z.of_N h * unit - exact) <= 1000000000 * unit + 2 * exact)%Z.
Definition bench_text (count ms h : N) : bytes :=
  digits 10 count ++ bs " iterations in " ++ digits 10 ms ++ bs " ms -> " ++ two_decimals h ++ bs " MiB/s" ++ NL.

(** The [k]th of the readings [clocks] is the first one at which ten seconds have passed since [start], on the count of full seconds, and [ms] is the
    time from [start] until then in milliseconds, off by less than one. *)
Definition round_of (start : timespec) (clocks : list timespec) (k : nat) (ms : N) : Prop :=
  exists t, nth_error clocks k = Some t /\ (10 <= tv_sec t - tv_sec start)%Z /\ (forall j t', (j < k)%nat -> nth_error clocks j = Some t' -> (tv_sec t' - tv_sec start < 10)%Z) /\
    (Z.abs (1000000 * Z.of_N ms - elapsed_ns start t) < 1000000)%Z.
(** Readings of a clock that are at most some million years apart *)
Definition readings (clocks : list timespec) : Prop := Forall clock_ok clocks /\ forall s t, In s clocks -> In t clocks -> (tv_sec t - tv_sec s < 1000000000000000)%Z.

(** What the hash benchmark should print about [rounds] rounds that begin with blocks of [sz] bytes: 100 blocks between two readings of the clock *)
Inductive hash_report : nat -> N -> list timespec -> bytes -> Prop :=
| hr_end sz clocks : hash_report 0 sz clocks []
| hr_round n sz start clocks k ms h text :
    round_of start clocks k ms -> rate_of (100 * N.of_nat (S k) * sz) ms h -> hash_report n (sz / 4) (skipn (S k) clocks) text ->
    hash_report (S n) sz (start :: clocks)
      (bs "hashing " ++ digits 10 sz ++ bs " byte blocks for about 10 seconds... " ++ bench_text (100 * N.of_nat (S k)) ms h ++ text).
