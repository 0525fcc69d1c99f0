(** Specification for csn-bench. *)
From Verif Require Import Base Utils Chunker SpecChunker Bench.
Local Open Scope Z_scope.

(** A reading of a clock, and the time between two readings in nanoseconds *)
Definition clock_ok (t : timespec) : Prop := 0 <= tv_nsec t < 1000000000 /\ 0 <= tv_sec t < 9223372036854775808.
Definition elapsed_ns (s e : timespec) : Z := (tv_sec e - tv_sec s) * 1000000000 + (tv_nsec e - tv_nsec s).

(** the output of the generator: [n] words from the state [a] *)
Fixpoint stream (n : nat) (a : N) : bytes :=
  match n with
  | O => []
  | S k => word_bytes (xorshift32 a) ++ stream k (xorshift32 a)
  end.
Fixpoint iterate {A} (f : A -> A) (n : nat) (x : A) : A := match n with O => x | S k => iterate f k (f x) end.

(** [ids] are the ids of all chunks of [data] but the last, unfinished one *)
Definition finished_chunks (E : env) (p : params) (D : N) (data : bytes) (ids : list bytes) : Prop :=
  exists done rest, ids = map (e_H E) done /\ chunks p D data = done ++ rest /\
    (rest = [] \/ exists c, rest = [c] /\ first_cut p D c = None).

(** Readings of a clock that are not absurdly far apart *)
Definition all_close (clocks : list timespec) : Prop := Forall clock_ok clocks /\ forall s t, In s clocks -> In t clocks -> (tv_sec t - tv_sec s < 18446744073709551)%Z.
