(** Model of the lines that main.c and patchdd.c print about a run, with the times and numbers in them. *)
From Coq Require Import Floats.SpecFloat.
From Verif Require Import Base Utils Ui Log SpecLog LogSites Discr Bench Patchdd.
Local Open Scope N_scope.

(** utils.c:226-233 [time_monotonic], for a reading [t] of CLOCK_MONOTONIC *)
Definition time_monotonic (t : timespec) : Z := tv_sec t.
(** main.c:300, 311; patchdd.c:101: (unsigned int)(now - start) *)
Definition seconds_between (start now : timespec) : N := Z.to_N ((time_monotonic now - time_monotonic start) mod 4294967296).

(** main.c:300, 303, 311-313, for the readings of the clock at 281, 299 and 310 and the final value of [skipped].
    The texts that are handed to u_log. *)
Definition init_site : site := INFO (bs "main.c") (bs "main") 300 (bs "init finished after %u seconds").
Definition sync_site : site := INFO (bs "main.c") (bs "main") 311 (bs "synchronization finished after %u seconds").
Definition skip_site : site := INFO (bs "main.c") (bs "main") 313 (bs "skipped prefix of %zu chunks").
Definition run_lines (t0 t1 t2 : timespec) (skipped : N) : list (site * list arg) :=
  [(init_site, [AInt (seconds_between t0 t1)]);
   (INFO (bs "main.c") (bs "main") 303 (bs "starting synchronization"), []);
   (sync_site, [AInt (seconds_between t1 t2)])] ++
  (if 0 <? skipped then [(skip_site, [ALong skipped])] else []).

(** patchdd.c:104: (100.0 * total_skipped) / src_size; the conversions of off_t are those of [f_of_N], the
    numbers are not negative. *)
Definition patchdd_share (skipped size : N) : spec_float := SFdiv fprec femax (SFmul fprec femax (f_of_N 100) (f_of_N skipped)) (f_of_N size).
(** printf's %.2f: the exact value to the nearest hundredth, ties to even.  SpecFloat does not know
    the sign of a NaN; glibc prints a minus sign before a negative one. *)
Definition hundredths (m : positive) (e : Z) : Z :=
  if (0 <=? e)%Z then (100 * Zpos m * 2 ^ e)%Z else
  let d := (2 ^ (- e))%Z in
  let q := (100 * Zpos m / d)%Z in
  let r := (100 * Zpos m mod d)%Z in
  if (2 * r <? d)%Z then q else if (d <? 2 * r)%Z then (q + 1)%Z else if Z.even q then q else (q + 1)%Z.
Definition fixed2 (x : spec_float) : bytes :=
  let text s h := (if (s : bool) then bs "-" else []) ++ digits 10 (h / 100) ++ bs "." ++ [48 + h mod 100 / 10; 48 + h mod 10] in
  match x with
  | S754_zero s => text s 0
  | S754_finite s m e => text s (Z.to_N (hundredths m e))
  | S754_infinity s => (if s then bs "-" else []) ++ bs "inf"
  | S754_nan => bs "nan"
  end.
(** patchdd.c:100-104: the lines on standard output *)
Definition patchdd_lines (start now : timespec) (skipped size : N) : bytes :=
  bs "synchronization finished after " ++ digits 10 (seconds_between start now) ++ bs " seconds" ++ NL ++
  bs "skipped a total of " ++ digits 10 skipped ++ bs " bytes (" ++ fixed2 (patchdd_share skipped size) ++ bs "% of the input)" ++ NL.

(** patchdd.c:26-107 [main] again ([patchdd_main], Patchdd.v), with the values of [total_skipped] and [src_size] where
    the closing lines are printed *)
Definition patchdd_run (E : env) (argv : list bytes) : M (N * option (N * N)) :=
  match argv with
  | _ :: src_path :: dst_path :: _ =>
      if beq src_path (bs "-h") || beq src_path (bs "--help") then ret (1, None) else
      match e_open E src_path with
      | None => ret (1, None)
      | Some src =>
          match e_open_rw E dst_path with
          | None => ret (1, None)
          | Some dst =>
              s <- fd_size E src ;;
              match s with
              | None => ret (1, None)
              | Some src_size =>
                  d <- fd_size E dst ;;
                  match d with
                  | None => ret (1, None)
                  | Some dst_size =>
                      if dst_size <? src_size then ret (1, None) else
                      r <- patch_loop E (S (N.to_nat src_size)) src dst src_size 0 0 ;;
                      match r with
                      | None => ret (1, None)
                      | Some skipped =>
                          ok <- fsync dst ;;
                          ret (if (ok : bool) then (0, Some (skipped, src_size)) else (1, None))
                      end
                  end
              end
          end
      end
  | _ => ret (1, None)
  end.
