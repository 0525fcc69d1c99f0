(** Model of /repo/store.c and /repo/store.h. *)
From Verif Require Import Base Utils Index StoreLocal Target StoreHttp.
Local Open Scope N_scope.

(** The implementations of [struct store] (store.h:10-15): a local store, an HTTP store, or the
    target (whose state is shared with the main program and passed separately). *)
Inductive store : Type := SLocal (ls : lstore) | SHttp (hs : hstore) | STarget.

(** store.h:18-21 [store_get_chunk] *)
Definition store_get_chunk (E : env) (s : store) (t : target) (id out : bytes)
  : M (option N * bytes * store * target) :=
  match s with
  | SLocal ls => '(r, out, ls) <- store_local_get_chunk E ls id out ;; ret (r, out, SLocal ls, t)
  | SHttp hs => '(r, out, hs) <- store_http_get_chunk E hs id out ;; ret (r, out, SHttp hs, t)
  | STarget => '(r, out, t) <- target_get_chunk E t id out ;; ret (r, out, STarget, t)
  end.

(** store.c:11-15 [struct substore]; the hit counter only appears in log messages *)
Record substore : Type := mkSub { ss_store : store; ss_active : bool }.

(** store.c:35-62: the loop over the sub-stores; [i] is the number of the first one in the list.
    Requests and answers are recorded in the trace. *)
Fixpoint chain_loop (E : env) (i : nat) (l : list substore) (t : target) (id out : bytes)
  : M (option N * bytes * list substore * target) :=
  match l with
  | [] => ret (Some 0, out, [], t)
  | ss :: l' =>
      if negb (ss_active ss) then
        '(r, out, l', t) <- chain_loop E (S i) l' t id out ;; ret (r, out, ss :: l', t)
      else
        trace (TQuery i id) ;;;
        '(r, out, s, t) <- store_get_chunk E (ss_store ss) t id out ;;
        trace (TAnswer i r) ;;;
        match r with
        | None =>
            '(r, out, l', t) <- chain_loop E (S i) l' t id out ;;
            ret (r, out, mkSub s false :: l', t)
        | Some n =>
            if 0 <? n then ret (Some n, out, mkSub s true :: l', t)
            else
              '(r, out, l', t) <- chain_loop E (S i) l' t id out ;;
              ret (r, out, mkSub s true :: l', t)
        end
  end.

(** store.c:26-62 [store_chain_get_chunk] *)
Definition store_chain_get_chunk (E : env) (l : list substore) (t : target) (id out : bytes)
  : M (option N * bytes * list substore * target) := chain_loop E 0 l t id out.

(** store.c:83-111 [store_chain_new]: two allocations; the chain starts empty with
    [stores_space] = max(1, hint) *)
Definition store_chain_new (hint : N) : M (option N) :=
  a <- alloc ;;
  if negb (a : bool) then ret None else
  a <- alloc ;;
  if negb (a : bool) then ret None else ret (Some (N.max 1 hint)).

(** store.c:113-134 [store_chain_append]: the new chain and its space; [false] = -1.  A write
    past the array would be undefined. *)
Definition store_chain_append (space : N) (l : list substore) (s : store)
  : M (bool * N * list substore) :=
  let full := space <=? N.of_nat (length l) in
  a <- (if full then alloc else ret true) ;;
  if negb (a : bool) then ret (false, space, l) else
  let space := if full then space * 2 else space in
  if space <=? N.of_nat (length l) then ub else
  ret (true, space, l ++ [mkSub s true]).

(** store.c:64-81 [store_chain_free]; the target has no free function *)
Fixpoint store_chain_free (l : list substore) : M unit :=
  match l with
  | [] => ret tt
  | ss :: l' =>
      match ss_store ss with
      | SLocal ls => store_local_free ls ;;; store_chain_free l'
      | _ => store_chain_free l'
      end
  end.
