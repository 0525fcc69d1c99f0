(** Termination (C54): every run ends once the operating system has answered often enough. *)
From Verif Require Import Base.

(** Number of system calls answered otherwise than by EINTR: transfers, end of file and errors. *)
Fixpoint settled (ev : list ioev) : nat :=
  match ev with [] => O | IoIntr :: r => settled r | _ :: r => S (settled r) end.
Fixpoint ksettled (kv : list kev) : nat :=
  match kv with [] => O | KIntr :: r => ksettled r | _ :: r => S (ksettled r) end.

(** The kernel hash interface is never used. *)
Definition kernel_unused (E : env) (w : world) : Prop := e_getenv E (bs "CSN_KCAPI_DRIVER") = None /\ w_kcapi w = false.
