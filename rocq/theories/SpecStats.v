(** What the counters of a chain should show. *)
From Verif Require Import Base SpecRun.
Local Open Scope N_scope.

(** The chunks that store [i] delivered. *)
Definition delivered (i : nat) (tr : list tev) : N :=
  N.of_nat (length (filter (fun ev => match ev with TAnswer j (Some k) => Nat.eqb i j && (0 <? k) | _ => false end) tr)).
(** main.c:161 and main.c:229: how many stores the two programs expect. *)
Definition hint_of (argv : list bytes) : N :=
  if is_csn argv then N.of_nat (length argv) - 3 + 1 else N.of_nat ((length argv - 4) / 2 + 1).
