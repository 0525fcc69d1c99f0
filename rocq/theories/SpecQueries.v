(** What the line about queries says (C107). *)
From Verif Require Import Base SpecBasic Log.
Local Open Scope N_scope.

Definition queries_text (q : N) : bytes := digits 10 q ++ bs " queries received by chain0".
