(** What it means for a chunk to be authentic, and programs that use a store over time. *)
From Verif Require Import Base SpecBasic Index StoreLocal.
Local Open Scope N_scope.

(** [hashes E b d id]: the bytes [d] hash to [id].  With [b = false] only an end piece of [d] has to:
    this is all that is known when the kernel hash interface may fail while hashing (C42). *)
Definition hashes (E : env) (b : bool) (d id : bytes) : Prop :=
  if b then e_H E d = id else exists s, end_piece s d /\ e_H E s = id.
(** [b = true] needs the kernel interface to be off or not to fail. *)
Definition hash_mode (b : bool) (w : world) : Prop :=
  b = true -> w_kcapi w = false \/ kernel_ok (w_kev w).

(** Files as they can exist: bytes, and less than 2^63 of them. *)
Definition files_ok (w : world) : Prop := forall i, bytes_ok (w_files w i) /\ blen (w_files w i) < OFF_LIMIT.

(** A sequence of requests to a local store, as the store chain makes them: every one is made with
    some contents of the output buffer, and none is made after a failure. *)
Fixpoint ask_local (E : env) (ls : lstore) (reqs : list (bytes * bytes)) : M (list (option N * bytes)) :=
  match reqs with
  | [] => ret []
  | (id, out) :: reqs' =>
      '(r, out', ls) <- store_local_get_chunk E ls id out ;;
      match r with
      | None => ret [(None, out')]
      | Some _ => rs <- ask_local E ls reqs' ;; ret ((r, out') :: rs)
      end
  end.
Definition use_local (E : env) (path : bytes) (index_path : option bytes) (cp : Chunker.params) (reqs : list (bytes * bytes))
  : M (option (list (option N * bytes))) :=
  l <- store_local_new E path index_path cp ;;
  match l with
  | None => ret None
  | Some ls => rs <- ask_local E ls reqs ;; ret (Some rs)
  end.

(** A positive answer [n] with buffer [out'] to a request for [id]. *)
Definition authentic (E : env) (b : bool) (req : bytes * bytes) (ans : option N * bytes) : Prop :=
  length (snd ans) = length (snd req) /\
  match fst ans with
  | None => True
  | Some n => 0 < n -> n <= blen (snd req) /\ hashes E b (firstn (N.to_nat n) (snd ans)) (fst req)
  end.
