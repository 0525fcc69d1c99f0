(** Model of /repo/target.h and /repo/target.c. *)
From Verif Require Import Base Utils Sha Index.
Local Open Scope N_scope.

(** target.h:9-15 [struct target] (fd -> inode) *)
Record target : Type := mkTarget { t_ino : nat; t_idx : index; t_queryable : bool }.
Definition t_set_idx (t : target) (x : index) : target := mkTarget (t_ino t) x (t_queryable t).

(** target.c:14-26 [target_add_chunk]; a failed insertion is only logged *)
Definition target_add_chunk (E : env) (t : target) (len offset : N) (id : bytes) : M target :=
  if negb (t_queryable t) then ret t else
  '(r, x) <- index_query E (t_idx t) id ;;
  match r with
  | Some _ => ret (t_set_idx t x)
  | None =>
      '(_, x) <- index_insert x offset len id ;;
      ret (t_set_idx t x)
  end.

(** target.c:28-44 [target_check_chunk]: result 1 = [Some true], 0 = [Some false], -1 =
    [None]; [tmp] is the buffer. *)
Definition target_check_chunk (E : env) (t : target) (tmp : bytes) (len offset : N) (id : bytes)
  : M (option bool * bytes * target) :=
  '(ok, data) <- preadall (t_ino t) len offset ;;
  let tmp := overlay data tmp in
  if negb (ok : bool) then ret (None, tmp, t) else
  calculated <- chunk_calculate_id E (firstn (N.to_nat len) tmp) ;;
  if negb (beq calculated id) then ret (Some false, tmp, t) else
  t <- target_add_chunk E t len offset id ;;
  ret (Some true, tmp, t).

(** target.c:46-71 [target_get_chunk] *)
Definition target_get_chunk (E : env) (t : target) (id out : bytes)
  : M (option N * bytes * target) :=
  if negb (t_queryable t) then ret (Some 0, out, t) else
  '(r, x) <- index_query E (t_idx t) id ;;
  let t := t_set_idx t x in
  match r with
  | None => ret (Some 0, out, t)
  | Some pos =>
      e <- index_get x pos ;;
      if blen out <? en_len e then ret (None, out, t) else
      '(ok, data) <- preadall (t_ino t) (en_len e) (en_start e) ;;
      let out := overlay data out in
      if negb (ok : bool) then ret (None, out, t)
      else ret (Some (en_len e), out, t)
  end.

(** target.c:73-88 [target_write]; reading past the end of the buffer is undefined.
    The call is recorded in the trace. *)
Definition target_write (E : env) (t : target) (data : bytes) (len offset : N) (id : bytes)
  : M (bool * target) :=
  if blen data <? len then ub else
  trace (TPut (t_ino t) offset (firstn (N.to_nat len) data)) ;;;
  ok <- pwriteall E (t_ino t) (firstn (N.to_nat len) data) offset ;;
  if negb (ok : bool) then ret (false, t) else
  t <- target_add_chunk E t len offset id ;;
  ret (true, t).

(** target.c:90-121 [target_new] *)
Definition target_new (E : env) (path : bytes) : M (option target) :=
  a <- alloc ;;
  if negb (a : bool) then ret None else
  match e_open_rw E path with
  | None => ret None
  | Some ino => ret (Some (mkTarget ino index_zero false))
  end.

(** target.c:123-136 [target_as_store]: [false] = NULL *)
Definition target_as_store (t : target) (estimate : N) : M (bool * target) :=
  if t_queryable t then ret (true, t) else
  '(ok, x) <- index_init (t_idx t) estimate ;;
  if negb (ok : bool) then ret (false, t_set_idx t x)
  else ret (true, mkTarget (t_ino t) x true).
