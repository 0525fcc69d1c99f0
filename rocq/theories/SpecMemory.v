(** Setting of the absence of undefined behaviour (C53). *)
From Verif Require Import Base Utils MainProg.
Local Open Scope N_scope.

(** No store of the form PATH:INDEX names something other than a regular file or a block device as PATH. *)
Definition special_free (E : env) (tp : bytes) (args : list bytes) : Prop :=
  forall arg path ip ino, In arg args -> classify_arg tp arg = ArgLocal path (Some ip) -> e_open E path = Some ino -> e_kind E ino <> KOther.
