(** Model of how /repo/store-http.c sets up and uses its curl handles: the options of each handle, the objects that they refer
    to, and the transfers that are started.  What a transfer does with the data is the subject of StoreHttp.v. *)
From Verif Require Import Base Utils Sha Encrypt StoreHttp.
Local Open Scope N_scope.

(** The options that the code sets (store-http.c:222, 304, 479-492). *)
Inductive copt : Type := O_WRITEFUNCTION | O_ERRORBUFFER | O_FOLLOWLOCATION | O_LOW_SPEED_TIME | O_LOW_SPEED_LIMIT | O_URL | O_WRITEDATA.
Definition copt_eqb (a b : copt) : bool :=
  match a, b with
  | O_WRITEFUNCTION, O_WRITEFUNCTION | O_ERRORBUFFER, O_ERRORBUFFER | O_FOLLOWLOCATION, O_FOLLOWLOCATION
  | O_LOW_SPEED_TIME, O_LOW_SPEED_TIME | O_LOW_SPEED_LIMIT, O_LOW_SPEED_LIMIT | O_URL, O_URL | O_WRITEDATA, O_WRITEDATA => true
  | _, _ => false
  end.

(** Their values: the function store_http_data_cb; curl_err_buf of a struct store_http; the variable ctx (line 297) of a
    call of store_http_get_chunk; a long; a string, which curl copies. *)
Inductive cval : Type := VDataCb | VErrBuf (hs : nat) | VCtx (call : nat) | VLong (n : N) | VStr (s : bytes).

(** The options of a handle; [None]: not set. *)
Definition handle : Type := copt -> option cval.
Definition h_set (h : handle) (o : copt) (v : option cval) : handle := fun x => if copt_eqb x o then v else h x.

(** A started transfer: the store and the id of the request it belongs to, the options, and the call of
    store_http_get_chunk that is running, with the store it was called for. *)
Record transfer : Type := mkTransfer { x_store : nat; x_id : bytes; x_opts : handle; x_call : nat }.

(** A struct store_http (store-http.c:18-35) as far as it matters here: its number (also its place in memory), its handle,
    and base URL and key as StoreHttp.v has them. *)
Record cstore : Type := mkCStore { cs_no : nat; cs_curl : nat; cs_hs : hstore }.

(** The handles that exist, the number of handles made so far, the structs that exist, the number of calls of
    store_http_get_chunk so far, the variable ctx that exists (a call, and the store it belongs to), what
    the library will answer, and the transfers started, the last one first.  An answer says whether the call succeeds and,
    for an option that could not be set, whether it keeps its old value or has none. *)
Record cworld : Type := mkCW {
  c_handles : nat -> option handle; c_next : nat; c_mem : nat -> bool; c_calls : nat; c_ctx : option (nat * nat);
  c_answers : list (bool * bool); c_log : list transfer }.

(** [None]: undefined behaviour *)
Definition CM (A : Type) : Type := cworld -> option (A * cworld).
Definition cret {A} (a : A) : CM A := fun w => Some (a, w).
Definition cbind {A B} (m : CM A) (k : A -> CM B) : CM B := fun w => match m w with Some (a, w) => k a w | None => None end.
Notation "x <== m ;; k" := (cbind m (fun x => k)) (at level 61, m at next level, right associativity).

Definition upd {A} (f : nat -> A) (i : nat) (a : A) : nat -> A := fun j => if Nat.eqb j i then a else f j.

(** The next answer of the library; if there is none left, calls succeed. *)
Definition c_ask : CM (bool * bool) := fun w =>
  match c_answers w with
  | [] => Some ((true, true), w)
  | a :: l => Some (a, mkCW (c_handles w) (c_next w) (c_mem w) (c_calls w) (c_ctx w) l (c_log w))
  end.
Definition c_set_handle (h : nat) (x : option handle) : CM unit := fun w =>
  Some (tt, mkCW (upd (c_handles w) h x) (c_next w) (c_mem w) (c_calls w) (c_ctx w) (c_answers w) (c_log w)).
Definition c_set_mem (i : nat) (b : bool) : CM unit := fun w =>
  Some (tt, mkCW (c_handles w) (c_next w) (upd (c_mem w) i b) (c_calls w) (c_ctx w) (c_answers w) (c_log w)).
Definition c_set_ctx (x : option (nat * nat)) : CM unit := fun w =>
  Some (tt, mkCW (c_handles w) (c_next w) (c_mem w) (c_calls w) x (c_answers w) (c_log w)).
Definition c_get_handle (h : nat) : CM handle := fun w => match c_handles w h with Some o => Some (o, w) | None => None end.

(** curl_easy_init *)
Definition curl_easy_init : CM (option nat) :=
  a <== c_ask ;;
  if negb (fst a) then cret None else
  fun w => Some (Some (c_next w), mkCW (upd (c_handles w) (c_next w) (Some (fun _ => None))) (S (c_next w)) (c_mem w) (c_calls w) (c_ctx w) (c_answers w) (c_log w)).

(** curl_easy_setopt as in store-http.c:37-45: whether it succeeds *)
Definition curl_easy_setopt (h : nat) (o : copt) (v : cval) : CM bool :=
  opts <== c_get_handle h ;;
  a <== c_ask ;;
  _ <== c_set_handle h (Some (h_set opts o (if fst a then Some v else if snd a then opts o else None))) ;;
  cret (fst a).

(** Whether the error buffer of a handle may be written to *)
Definition errbuf_ok (w : cworld) (o : handle) : bool :=
  match o O_ERRORBUFFER with None => true | Some (VErrBuf hs) => c_mem w hs | Some _ => false end.
(** Whether data that arrives would go to an existing variable ctx, of the store whose request this is *)
Definition data_ok (w : cworld) (i : nat) (o : handle) : bool :=
  match o O_WRITEFUNCTION, o O_WRITEDATA, c_ctx w with
  | Some VDataCb, Some (VCtx call), Some (call', i') => Nat.eqb call call' && Nat.eqb i i'
  | _, _, _ => false
  end.

(** curl_easy_perform: whether it ends without a transient error (store-http.c:227-232) *)
Definition curl_easy_perform_o (s : cstore) (id : bytes) : CM bool :=
  opts <== c_get_handle (cs_curl s) ;;
  _ <== (fun w => if errbuf_ok w opts && data_ok w (cs_no s) opts
                  then Some (tt, mkCW (c_handles w) (c_next w) (c_mem w) (c_calls w) (c_ctx w) (c_answers w)
                                      (mkTransfer (cs_no s) id opts (c_calls w) :: c_log w))
                  else None) ;;
  a <== c_ask ;; cret (fst a).

(** curl_easy_cleanup, which may report to the error buffer *)
Definition curl_easy_cleanup (h : nat) : CM unit :=
  opts <== c_get_handle h ;;
  _ <== (fun w => if errbuf_ok w opts then Some (tt, w) else None) ;;
  c_set_handle h None.

(** store-http.c:234-258 [retried_curl_easy_perform], without the waiting *)
Fixpoint retried_o (s : cstore) (id : bytes) (remaining : nat) : CM bool :=
  match remaining with
  | O => cret false
  | S remaining => ok <== curl_easy_perform_o s id ;; if ok then cret true else retried_o s id remaining
  end.

(** store-http.c:273-316 [store_http_get_chunk] up to the end of the transfer: whether there was one without a transient error.
    The variable ctx of line 297 exists until the function returns. *)
Definition get_chunk_o (s : cstore) (id : bytes) : CM bool :=
  ok <== curl_easy_setopt (cs_curl s) O_URL (VStr (chunk_url (cs_hs s) id)) ;;      (* set_url: 210-225 *)
  if negb ok then cret false else
  a <== (match hs_key (cs_hs s) with Some _ => c_ask | None => cret (true, true) end) ;;   (* 290 *)
  if negb (fst a) then cret false else
  call <== (fun w => Some (S (c_calls w), mkCW (c_handles w) (c_next w) (c_mem w) (S (c_calls w)) (c_ctx w) (c_answers w) (c_log w))) ;;
  _ <== c_set_ctx (Some (call, cs_no s)) ;;                                          (* 297 *)
  ok <== curl_easy_setopt (cs_curl s) O_WRITEDATA (VCtx call) ;;                     (* 304 *)
  ok <== (if ok then retried_o s id CONNECT_TRIES else cret false) ;;                (* 309 *)
  _ <== c_set_ctx None ;;
  cret ok.

(** store-http.c:379-394 [store_http_free] *)
Definition http_free_o (s : cstore) : CM unit :=
  _ <== curl_easy_cleanup (cs_curl s) ;;                                             (* 388 *)
  c_set_mem (cs_no s) false.                                                         (* 393 *)

(** store-http.c:479-492 *)
Definition new_options (i : nat) : list (copt * cval) :=
  [(O_WRITEFUNCTION, VDataCb); (O_ERRORBUFFER, VErrBuf i); (O_FOLLOWLOCATION, VLong 1); (O_LOW_SPEED_TIME, VLong 15); (O_LOW_SPEED_LIMIT, VLong 10)].
Fixpoint set_options (h : nat) (l : list (copt * cval)) : CM bool :=
  match l with
  | [] => cret true
  | (o, v) :: l => ok <== curl_easy_setopt h o v ;; if ok then set_options h l else cret false
  end.

(** store-http.c:436-513 [store_http_new] from line 473 on, for the [i]th store; the lines before, which find the base URL and
    the key, are in StoreHttp.v. *)
Definition http_new_o (i : nat) (hs : hstore) : CM (option cstore) :=
  _ <== c_set_mem i true ;;
  c <== curl_easy_init ;;
  match c with
  | None => _ <== c_set_mem i false ;; cret None
  | Some h =>
      ok <== set_options h (new_options i) ;;
      a <== (if ok then c_ask else cret (false, true)) ;;                            (* 495 *)
      if fst a then cret (Some (mkCStore i h hs)) else
      _ <== curl_easy_cleanup h ;;                                                   (* 500 *)
      _ <== c_set_mem i false ;; cret None                                           (* 509 *)
  end.

(** What a program can do with stores: make one, ask one for a chunk, free one.  Stores are numbered in the order in which they
    are made; one that could not be made, or was freed, is not used. *)
Inductive cop : Type := CNew (hs : hstore) | CGet (i : nat) (id : bytes) | CFree (i : nat).
Definition stores : Type := list (option cstore).
Fixpoint drop_store (i : nat) (l : stores) : stores :=
  match l, i with
  | [], _ => []
  | _ :: l, O => None :: l
  | x :: l, S i => x :: drop_store i l
  end.
Fixpoint run_ops (l : list cop) (st : stores) : CM stores :=
  match l with
  | [] => cret st
  | CNew hs :: l => s <== http_new_o (length st) hs ;; run_ops l (st ++ [s])
  | CGet i id :: l =>
      match nth i st None with
      | Some s => _ <== get_chunk_o s id ;; run_ops l st
      | None => run_ops l st
      end
  | CFree i :: l =>
      match nth i st None with
      | Some s => _ <== http_free_o s ;; run_ops l (drop_store i st)
      | None => run_ops l st
      end
  end.
Definition fresh (answers : list (bool * bool)) : cworld := mkCW (fun _ => None) 0 (fun _ => false) 0 None answers [].
