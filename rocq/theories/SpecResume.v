(** Runs that find the beginning of the image in the target (C94). *)
From Verif Require Import Base.
Local Open Scope N_scope.

(** The file [g] starts with the pieces [ps] of an image. *)
Definition begun_with (g : bytes) (ps : list bytes) : Prop := exists r, g = concat ps ++ r.

(** As [enough], when a request to a store may take [per] transfers. *)
Definition enough_at (per : N) (n stores : nat) : nat := n * (40 + (stores + 2) * N.to_nat per).
