(** A chunk store kept in a directory and put on a web server (C80). *)
From Verif Require Import Base SpecBasic SpecCrypto SpecHttp Utils Tool SpecTool.
Local Open Scope N_scope.

(** The server hosts the directory [root] of the file system [fs] at [base]: from any transfer on it delivers a file that exists
    after at most nine transient failures. *)
Definition hosts (E : env) (base root : bytes) (fs : bytes -> option bytes) : Prop :=
  forall rel d m, fs (root ++ bs "/" ++ rel) = Some d ->
    exists q, (q < 10)%nat /\ (forall i, (i < q)%nat -> fails_early E (base ++ bs "/" ++ rel) (m + i)) /\ serves E (base ++ bs "/" ++ rel) (m + q) d.
(** The directory holds the chunk [P] under the name casync gives it, compressed to at most [limit] bytes. *)
Definition kept_at (E : env) (root : bytes) (fs : bytes -> option bytes) (P path : bytes) (limit : N) : Prop :=
  casync_url root (e_H E P) path false /\ exists body, fs path = Some body /\ decodes E body P /\ blen body <= limit.
