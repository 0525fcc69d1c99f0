(** What a run has asked for and written when it ends in whatever way (C99). *)
From Verif Require Import Base SpecBasic SpecCaibx SpecMain SpecRun SpecReport SpecDiary.
Local Open Scope N_scope.

(** A request, or the place and size of data to be written. *)
Inductive step : Type := Ask (id : bytes) | Write (off len : N).
Definition outline (a : act) : step := match a with Asks id => Ask id | Puts off d => Write off (blen d) end.
(** What is to be done for the entries from [k] to before [n]. *)
Definition steps (f : bytes) (k n : nat) : list step :=
  flat_map (fun i => (if to_fetch f k i then [Ask (ent_id f i)] else []) ++ [Write (ent_start f i) (ent_size f i)]) (seq k (n - k)).
Definition begins {A} (a l : list A) : Prop := exists rest, l = a ++ rest.

(** Where data was written and how much. *)
Definition places (l : list act) : list (N * N) := flat_map (fun a => match a with Puts off d => [(off, blen d)] | Asks _ => [] end) l.
(** Each piece of data comes where the one before it ended. *)
Fixpoint gapless (off : N) (l : list (N * N)) : Prop :=
  match l with [] => True | (o, len) :: l' => o = off /\ gapless (o + len) l' end.
