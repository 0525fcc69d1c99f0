(** Servers that cannot be used (C89). *)
From Verif Require Import Base SpecHttp StoreHttp.
Local Open Scope N_scope.

(** A transfer fails for want of a connection, or ends without a response code, or with a code that reports an error other
    than the chunk being absent. *)
Definition refused (E : env) (url : bytes) (k : nat) : Prop :=
  fails_early E url k \/ match p_code (e_server E url k) with None => True | Some c => 400 <= c /\ c <> 404 /\ c <> 410 end.
(** Every transfer is refused. *)
Definition down (E : env) : Prop := forall url k, refused E url k.
