(** Model of /repo/store-local.c. *)
From Verif Require Import Base Utils Sha Chunker Caibx Index.
Local Open Scope N_scope.

(** store-local.c:17-24 [struct store_local] (fd -> inode) *)
Record lstore : Type := mkLStore { ls_ino : nat; ls_idx : index; ls_params : params }.
Definition set_idx (ls : lstore) (x : index) : lstore := mkLStore (ls_ino ls) x (ls_params ls).

Definition INDEX_FLAG_VALIDATED : N := 1.           (* store-local.c:26 *)

(** store-local.c:33-47 [store_insert_index]; the state is the index, ctx->flags is [flags] *)
Definition store_insert_index (flags : N) (offset len : N) (id : bytes) (x : index)
  : M (bool * index) :=
  '(r, x) <- index_insert x offset len id ;;
  match r with
  | None => ret (false, x)
  | Some pos => ret (true, index_or_flags x pos flags)
  end.

(** The mutable record the callbacks modify is ls->idx; a failing call may leave it changed. *)

(** store-local.c:49-101 [store_sideload_index] *)
Definition store_sideload_index (E : env) (ls : lstore) (index_path : bytes) : M (bool * lstore) :=
  match e_open E index_path with
  | None => ret (false, ls)
  | Some ino =>
      h <- caibx_load_header E ino ;;
      match h with
      | None => ret (false, ls)
      | Some (cp, n) =>
          if negb ((p_min cp =? p_min (ls_params ls)) && (p_avg cp =? p_avg (ls_params ls))
                   && (p_max cp =? p_max (ls_params ls)))
          then ret (false, ls)
          else
            '(ok, x) <- index_init (ls_idx ls) n ;;
            if negb (ok : bool) then ret (false, set_idx ls x) else
            '(ok, x) <- caibx_iterate_entries (store_insert_index 0) ino cp n x ;;
            if negb (ok : bool) then
              x <- index_cleanup x ;; ret (false, set_idx ls x)
            else ret (true, set_idx ls x)
      end
  end.

(** store-local.c:108: (12ull * size/avg_size) / 10.  avg_size is not zero, because
    chunker_params_set demands min < avg. *)
Definition chunk_estimate (size avg : N) : N := (12 * size) mod SIZE_MOD / avg / 10.

(** store-local.c:103-128 [store_scan] *)
Definition store_scan (E : env) (ls : lstore) : M (bool * lstore) :=
  trace (TScan (ls_ino ls)) ;;;
  s <- fd_size E (ls_ino ls) ;;
  match s with
  | None => ret (false, ls)
  | Some size =>
      '(ok, x) <- index_init (ls_idx ls) (chunk_estimate size (p_avg (ls_params ls))) ;;
      if negb (ok : bool) then ret (false, set_idx ls x) else
      '(ok, x) <- chunker_scan_fd (store_insert_index INDEX_FLAG_VALIDATED) E (ls_ino ls)
                                  (ls_params ls) x ;;
      ret (ok, set_idx ls x)
  end.

(** store-local.c:130-183 [store_local_get_chunk].  The result is the return value
    ([None] = -1), the output buffer and the store.  out_max is the length of the
    buffer [out].  Every restart follows a successful store_scan, which uses
    at least one event, so the fuel (1 + number of events) is never used up. *)
Fixpoint local_get_loop (E : env) (fuel : nat) (ls : lstore) (id out : bytes)
  : M (option N * bytes * lstore) :=
  match fuel with
  | O => halt
  | S fuel' =>
      '(r, x) <- index_query E (ls_idx ls) id ;;
      let ls := set_idx ls x in
      match r with
      | None => ret (Some 0, out, ls)
      | Some pos =>
          e <- index_get x pos ;;
          if blen out <? en_len e then ret (None, out, ls) else
          '(ok, data) <- preadall (ls_ino ls) (en_len e) (en_start e) ;;
          let out := overlay data out in
          if negb (ok : bool) then ret (None, out, ls) else
          if negb (N.land (en_flags e) INDEX_FLAG_VALIDATED =? 0) then ret (Some (en_len e), out, ls)
          else
            actual <- chunk_calculate_id E (firstn (N.to_nat (en_len e)) out) ;;
            if beq id actual then
              ret (Some (en_len e), out, set_idx ls (index_or_flags x pos INDEX_FLAG_VALIDATED))
            else
              x <- index_cleanup x ;;
              '(ok, ls) <- store_scan E (set_idx ls x) ;;
              if negb (ok : bool) then ret (None, out, ls)
              else local_get_loop E fuel' ls id out
      end
  end.
Definition store_local_get_chunk (E : env) (ls : lstore) (id out : bytes)
  : M (option N * bytes * lstore) :=
  fun w => local_get_loop E (S (length (w_io w))) ls id out w.

(** store-local.c:185-191 [store_local_free] *)
Definition store_local_free (ls : lstore) : M unit :=
  x <- index_cleanup (ls_idx ls) ;; ret tt.

(** store-local.c:193-237 [store_local_new] ([None] = NULL) *)
Definition store_local_new (E : env) (path : bytes) (index_path : option bytes) (cp : params)
  : M (option lstore) :=
  a <- alloc ;;
  if negb (a : bool) then ret None else
  match e_open E path with
  | None => ret None
  | Some ino =>
      let ls := mkLStore ino index_zero cp in
      '(loaded, ls) <- (match index_path with
                        | Some ip => store_sideload_index E ls ip
                        | None => ret (false, ls)
                        end) ;;
      if (loaded : bool) then ret (Some ls) else
      '(ok, ls) <- store_scan E ls ;;
      ret (if (ok : bool) then Some ls else None)
  end.
