(** Specification of the chunk index: a bag of insertions. *)
From Verif Require Import Base Utils Index.
Local Open Scope N_scope.

(** A sequence of uses of an index and what each use returned. *)
Inductive iop : Type := OpInsert (off len : N) (id : bytes) | OpQuery (id : bytes).
Fixpoint run_ops (E : env) (x : index) (ops : list iop) : M (list (option entry)) :=
  match ops with
  | [] => ret []
  | OpInsert off len id :: ops' =>
      '(r, x) <- index_insert x off len id ;;
      e <- (match r with Some pos => e <- index_get x pos ;; ret (Some e) | None => ret None end) ;;
      rs <- run_ops E x ops' ;; ret (e :: rs)
  | OpQuery id :: ops' =>
      '(r, x) <- index_query E x id ;;
      e <- (match r with Some pos => e <- index_get x pos ;; ret (Some e) | None => ret None end) ;;
      rs <- run_ops E x ops' ;; ret (e :: rs)
  end.
Definition use_index (E : env) (expected : N) (ops : list iop) : M (option (list (option entry))) :=
  '(ok, x) <- index_init index_zero expected ;;
  if (ok : bool) then rs <- run_ops E x ops ;; ret (Some rs) else ret None.

(** What the answers must be: [ins] is what has been inserted so far.  An insertion may only fail
    if [mayfail]. *)
Fixpoint answers (mayfail : Prop) (ins : list entry) (ops : list iop) (rs : list (option entry)) : Prop :=
  match ops, rs with
  | [], [] => True
  | OpInsert off len id :: ops', r :: rs' =>
      (r = Some (mkEntry off len 0 id) /\ answers mayfail (mkEntry off len 0 id :: ins) ops' rs') \/
      (r = None /\ mayfail /\ answers mayfail ins ops' rs')
  | OpQuery id :: ops', r :: rs' =>
      match r with
      | Some e => In e ins /\ en_id e = id
      | None => forall e, In e ins -> en_id e <> id
      end /\ answers mayfail ins ops' rs'
  | _, _ => False
  end.
