(** How much a run may ask of the servers (C65). *)
From Verif Require Import Base SpecMain SpecRun MainProg.
Local Open Scope N_scope.

(** Number of transfers started and time slept, in microseconds, according to a trace. *)
Fixpoint performs (tr : list tev) : N := match tr with [] => 0 | TPerform _ :: r => 1 + performs r | _ :: r => performs r end.
Fixpoint slept (tr : list tev) : N := match tr with [] => 0 | TSleep us :: r => us + slept r | _ :: r => slept r end.

(** Number of HTTP stores on the command line. *)
Definition http_stores (argv : list bytes) : N :=
  N.of_nat (length (filter (fun a => match classify_arg (cmd_target argv) a with ArgHttp _ => true | _ => false end) (cmd_stores argv))).
(** Number of table entries an index file has room for: a header of 64 bytes, 40 bytes per entry and for the tail. *)
Definition room (E : env) (argv : list bytes) (w : world) : N :=
  match e_open E (cmd_index argv) with Some i => (blen (w_files w i) - 104) / 40 | None => 0 end.
