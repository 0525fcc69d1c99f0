(** Model of /repo/index.h and /repo/index.c. *)
From Verif Require Import Base Utils.
Local Open Scope N_scope.

(** What the pointer [entries] of a struct index is: NULL, a live array or a freed one. *)
Inductive ptr : Type := PNull | PLive | PFreed.

(** index.h:15-20 [struct index]; n_entries is the length of [ix_entries]. *)
Record index : Type := mkIndex {
  ix_sorted : bool; ix_space : N; ix_entries : list entry; ix_ptr : ptr }.

(** A zero-initialised struct index (calloc in target.c:95 and store-local.c:199). *)
Definition index_zero : index := mkIndex false 0 [] PNull.

Definition n_entries (x : index) : N := N.of_nat (length (ix_entries x)).

(** index.c:7-20 [index_init]; on failure only the pointer has been set (to NULL). *)
Definition index_init (x : index) (expected : N) : M (bool * index) :=
  u_assert (0 <? expected) ;;;
  a <- alloc ;;
  if (a : bool) then ret (true, mkIndex false expected [] PLive)
  else ret (false, mkIndex (ix_sorted x) (ix_space x) (ix_entries x) PNull).

(** index.c:22-27 [index_cleanup]: free; freeing twice is undefined *)
Definition index_cleanup (x : index) : M index :=
  match ix_ptr x with
  | PNull => ret x
  | PLive => ret (mkIndex (ix_sorted x) (ix_space x) (ix_entries x) PFreed)
  | PFreed => ub
  end.

(** sizeof(struct index_entry), index.h:8-13 *)
Definition ENTRY_SIZE : N := 48.

(** index.c:29-67 [index_insert]: the position of the new entry ([None] = NULL).  The
    array write is checked against the bytes the array has; realloc is asked for
    [new_size * sizeof] bytes, computed in size_t (line 45). *)
Definition index_insert (x : index) (offset len : N) (id : bytes) : M (option nat * index) :=
  u_assert (negb (len =? 0)) ;;;
  match ix_ptr x with
  | PNull => abort                                 (* line 35 *)
  | PFreed => ub
  | PLive =>
      let grow := ix_space x <=? n_entries x in
      a <- (if grow then alloc else ret true) ;;
      if negb (a : bool) then ret (None, x) else
      let space := if grow then (ix_space x * 12) mod SIZE_MOD / 10 + 1 else ix_space x in
      let room := if grow then (space * ENTRY_SIZE) mod SIZE_MOD else space * ENTRY_SIZE in
      if room <? (n_entries x + 1) * ENTRY_SIZE then ub else
      ret (Some (length (ix_entries x)),
           mkIndex false space (ix_entries x ++ [mkEntry offset len 0 id]) PLive)
  end.

(** index.c:77-85 [index_sort] *)
Definition index_sort (E : env) (x : index) : index :=
  mkIndex true (ix_space x) (e_qsort E (ix_entries x)) (ix_ptr x).

(** index.c:87-100 [index_query]: position of the entry found.  Reading through a NULL or
    dangling pointer is undefined unless there are no entries (a freed pointer may not even
    be passed on). *)
Definition index_query (E : env) (x : index) (id : bytes) : M (option nat * index) :=
  match ix_ptr x, ix_entries x with
  | PFreed, _ => ub
  | PNull, _ :: _ => ub
  | _, _ =>
      let x := if ix_sorted x then x else index_sort E x in
      ret (e_bsearch E (ix_entries x) id, x)
  end.

(** A pointer to an index entry is dereferenced. *)
Definition index_get (x : index) (pos : nat) : M entry :=
  match nth_error (ix_entries x) pos with
  | Some e => ret e
  | None => ub
  end.

(** e->flags |= f *)
Definition index_or_flags (x : index) (pos : nat) (f : N) : index :=
  match nth_error (ix_entries x) pos with
  | Some e =>
      mkIndex (ix_sorted x) (ix_space x)
        (upd_nth pos (mkEntry (en_start e) (en_len e) (N.lor (en_flags e) f) (en_id e)) (ix_entries x))
        (ix_ptr x)
  | None => x
  end.
