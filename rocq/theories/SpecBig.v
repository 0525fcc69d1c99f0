(** Chunks that are too big (C104). *)
From Verif Require Import Base.
Local Open Scope N_scope.

(** The largest chunk casync makes unless told otherwise: four times the average size of 64 KiB. *)
Definition largest : N := 4 * 64 * 1024.
(** Nothing was written at or behind [bound]. *)
Definition all_before (bound : N) (tr : list tev) : Prop := forall ino o x, In (TWrite ino o x) tr -> o + blen x <= bound.
