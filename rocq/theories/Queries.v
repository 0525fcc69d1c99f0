(** Model of the counter [queries] of the chain (store.c:23, 33, 68): the functions of MainProg.v from entry_cb on once more,
    with the counter beside the state.  There is one chain in a run; store_chain_new (store.c:88, 99) calls it chain0. *)
From Verif Require Import Base Utils Log SpecLog LogSites Sha Chunker Caibx Index StoreLocal Target StoreHttp Chain Ui MainProg.
Local Open Scope N_scope.

(** store.c:26-62 [store_chain_get_chunk] with line 33, a uint32_t *)
Definition chain_get_q (E : env) (l : list substore) (q : N) (t : target) (id out : bytes)
  : M (option N * bytes * list substore * target * N) :=
  r <- store_chain_get_chunk E l t id out ;; ret (r, (q + 1) mod M32).

(** main.c:57-71, as [entry_fetch_write] *)
Definition fetch_q (E : env) (n_entries : N) (offset len : N) (id : bytes) (sq : mstate * N)
  : M (bool * (mstate * N)) :=
  let '(st, q) := sq in
  let have := match m_last_id st with Some l => beq l id | None => false end in
  '(ok, st, q) <-
    (if have then ret (true, st, q) else
     match m_store st with
     | None => ub
     | Some chain =>
         '(r, buf, chain, t, q) <- chain_get_q E chain q (m_target st) id (m_buf st) ;;
         let good := match r with Some n => n =? len | None => false end in
         if good then ret (true, m_set st (Some chain) t (Some id) (m_resuming st) buf, q)
         else ret (false, m_set st (Some chain) t (m_last_id st) (m_resuming st) buf, q)
     end) ;;
  if negb (ok : bool) then ret (false, (st, q)) else
  '(ok, t) <- target_write E (m_target st) (m_buf st) len offset id ;;
  let st := m_set st (m_store st) t (m_last_id st) (m_resuming st) (m_buf st) in
  if negb (ok : bool) then ret (false, (st, q))
  else '(ok, st) <- entry_progress E n_entries st ;; ret (ok, (st, q)).

(** main.c:32-84, as [entry_cb] *)
Definition entry_q (E : env) (n_entries : N) (offset len : N) (id : bytes) (sq : mstate * N)
  : M (bool * (mstate * N)) :=
  let '(st, q) := sq in
  if m_resuming st then
    if BUF_SIZE <? len then ret (false, (st, q)) else
    '(r, buf, t) <- target_check_chunk E (m_target st) (m_buf st) len offset id ;;
    match r with
    | Some true =>
        '(ok, st) <- entry_progress E n_entries
          (mkM (m_store st) t (m_last_id st) true buf (m_skipped st + 1) (m_handled st)) ;;
        ret (ok, (st, q))
    | _ => fetch_q E n_entries offset len id (m_set st (m_store st) t (m_last_id st) false buf, q)
    end
  else fetch_q E n_entries offset len id (st, q).

(** main.c:303-317, as [run_sync]: the exit status, and the number that store.c:68 prints if the chain is freed.
    The counter starts at zero (calloc, store.c:88). *)
Definition run_q (E : env) (su : setup) : M (N * option N) :=
  '(ok, (st, q)) <- caibx_iterate_entries (entry_q E (su_n su)) (su_index su) (su_params su) (su_n su) (initial_mstate su, 0) ;;
  if negb (ok : bool) then ret (1, None) else
  match m_store st with
  | None => ub
  | Some chain => store_chain_free chain ;;; ret (0, Some q)
  end.
(** main.c:270-318, as [main] *)
Definition main_q (E : env) (argv : list bytes) : M (N * option N) :=
  let app := basename (nth 0 argv []) in
  r <- (if beq app (bs "csn") then csn E argv
        else if beq app (bs "casync") then casync E argv
        else ret (InitExit 1)) ;;
  match r with
  | InitFail => ret (1, None)
  | InitExit c => ret (c, None)
  | InitOk su => run_q E su
  end.

(** store.c:68-69; the compiler may attribute it to either line *)
Definition queries_sites : list site :=
  [INFO (bs "store.c") (bs "store_chain_free") 68 (bs "%u queries received by %s");
   INFO (bs "store.c") (bs "store_chain_free") 69 (bs "%u queries received by %s")].
Definition queries_line (s : site) (tty : bool) (loglevel : N) (path : bytes) (q : N) : option bytes :=
  log_at s tty loglevel path [AInt q; AStr (bs "chain0")].
