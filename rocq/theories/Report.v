(** Model of what a run reports about its stores: the names of the stores (store.h:8-11) and the messages
    main.c:97-101 and store.c:64-73 print with them. *)
From Verif Require Import Base Utils Log SpecLog LogSites Chunker StoreLocal StoreHttp Chain MainProg Res.
Local Open Scope N_scope.

(** store-http.c:473, store-local.c:210, target.c:104: the name given to the store made for an argument
    (main.c:86-122).  snprintf keeps 127 bytes ([store_name], Res.v). *)
Definition label (target arg : bytes) : bytes :=
  match classify_arg target arg with
  | ArgTarget => store_name (bs "target:" ++ target)
  | ArgHttp url => store_name url
  | ArgLocal path _ => store_name path
  end.

(** store.c:71-73: the line for one store, logged with the number of chunks it delivered.  The compiler
    may attribute it to line 71 or 73. *)
Definition answered_sites : list site :=
  [INFO (bs "store.c") (bs "store_chain_free") 71 (bs "    %u answered by store %s");
   INFO (bs "store.c") (bs "store_chain_free") 73 (bs "    %u answered by store %s")].
Definition answered_line (s : site) (tty : bool) (loglevel : N) (path : bytes) (hits : N) (target arg : bytes) : option bytes :=
  log_at s tty loglevel path [AInt hits; AStr (label target arg)].

(** main.c:99: an HTTP store cannot be made *)
Definition failed_site : site := ERR (bs "main.c") (bs "append_store_from_arg") 99 (bs "creating HTTP store from '%s' failed").
Definition failed_line (tty : bool) (loglevel : N) (path arg : bytes) : option bytes :=
  log_at failed_site tty loglevel path [AStr arg].
