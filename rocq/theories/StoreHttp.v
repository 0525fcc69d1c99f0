(** Model of /repo/store-http.c. *)
From Verif Require Import Base Utils Sha Encrypt.
Local Open Scope N_scope.

(** store-http.c:15-16 *)
Definition ERROR_MAX : N := 10.
Definition CONNECT_TRIES : nat := 10.

(** store-http.c:18-35 [struct store_http]: base URL, capacity of url_buf, size of the
    decode buffer (its contents are part of the request, below), error
    counter, key if encrypted. *)
Record hstore : Type := mkHStore {
  hs_base : bytes; hs_url_cap : N; hs_dec_cap : N; hs_err : N; hs_key : option bytes }.

(** store-http.c:47-51 *)
Inductive hstate : Type := STARTED | STREAMING | FAILED.

(** store-http.c:53-61 [struct http_request_ctx], together with the parts of the store
    that change during a request: the first decode_buffer_fill bytes of the decode
    buffer, its size, the calls made on the zstd stream since ZSTD_initDStream, and
    the cipher state. *)
Record req : Type := mkReq {
  rq_state : hstate; rq_out : bytes; rq_written : nat;
  rq_dec : bytes; rq_cap : N; rq_zhist : list (bytes * nat); rq_cipher : option cipher }.

Definition rq_set_state s r := mkReq s (rq_out r) (rq_written r) (rq_dec r) (rq_cap r) (rq_zhist r) (rq_cipher r).
Definition rq_set_dec d r := mkReq (rq_state r) (rq_out r) (rq_written r) d (rq_cap r) (rq_zhist r) (rq_cipher r).

(** store-http.c:63-102 [decode_buffer_absorb] *)
Definition decode_buffer_absorb (r : req) (data : bytes) : M (bool * req) :=
  let grow := rq_cap r - blen (rq_dec r) <? blen data in
  let new_size := (rq_cap r + blen data) mod SIZE_MOD in
  if grow && (new_size <? rq_cap r) then ret (false, r) else
  a <- (if grow then alloc else ret true) ;;
  if negb (a : bool) then ret (false, r) else
  let cap := if grow then new_size else rq_cap r in
  if cap <? blen (rq_dec r) + blen data then ub else
  match rq_cipher r with
  | Some c =>
      let '(d, c') := encrypt_do c data in
      ret (true, mkReq (rq_state r) (rq_out r) (rq_written r) (rq_dec r ++ d) cap (rq_zhist r) (Some c'))
  | None =>
      ret (true, mkReq (rq_state r) (rq_out r) (rq_written r) (rq_dec r ++ data) cap (rq_zhist r) None)
  end.

Definition ZSTD_MAGIC : bytes := [40; 181; 47; 253].       (* store-http.c:104 *)

(** store-http.c:106-147 [handle_data]: number of bytes consumed, [None] = -1 *)
Definition handle_data (E : env) (r : req) (data : bytes) : M (option nat * req) :=
  match rq_state r with
  | STARTED =>
      if blen data <? 4 then ret (Some O, r)
      else if negb (beq (firstn 4 data) ZSTD_MAGIC) then ret (None, r)
      else
        let room := (length (rq_out r) - rq_written r)%nat in
        match e_zstep E (rq_zhist r) data room with
        | None => ret (None, rq_set_state STREAMING r)
        | Some (consumed, produced) =>
            ret (Some consumed,
                 mkReq STREAMING (overlay_at (rq_written r) produced (rq_out r))
                       (rq_written r + length produced) (rq_dec r) (rq_cap r)
                       ((data, room) :: rq_zhist r) (rq_cipher r))
        end
  | STREAMING =>
        let room := (length (rq_out r) - rq_written r)%nat in
        match e_zstep E (rq_zhist r) data room with
        | None => ret (None, r)
        | Some (consumed, produced) =>
            ret (Some consumed,
                 mkReq STREAMING (overlay_at (rq_written r) produced (rq_out r))
                       (rq_written r + length produced) (rq_dec r) (rq_cap r)
                       ((data, room) :: rq_zhist r) (rq_cipher r))
        end
  | FAILED => abort                                        (* line 120 *)
  end.

(** store-http.c:162-208 [store_http_data_cb]: the value returned to curl.  [code] is
    what get_response_code (149-160) yields for the running transfer ([None] = -1). *)
Definition store_http_data_cb (E : env) (code : option N) (ptr : bytes) (r : req) : M (N * req) :=
  let started_bad :=
    match rq_state r with
    | STARTED => negb (match code with Some c => c =? 200 | None => false end)
    | _ => false
    end in
  if started_bad then ret (0, rq_set_state FAILED r) else
  match rq_state r with
  | FAILED => ret (0, r)
  | _ =>
      if negb (blen (rq_dec r) =? 0) || (match rq_cipher r with Some _ => true | None => false end) then
        '(ok, r) <- decode_buffer_absorb r ptr ;;
        if negb (ok : bool) then ret (0, rq_set_state FAILED r) else
        '(n, r) <- handle_data E r (rq_dec r) ;;
        match n with
        | None => ret (0, rq_set_state FAILED r)
        | Some n => ret (blen ptr, rq_set_dec (skipn n (rq_dec r)) r)
        end
      else
        '(n, r) <- handle_data E r ptr ;;
        match n with
        | None => ret (0, rq_set_state FAILED r)
        | Some n =>
            if Nat.ltb n (length ptr) then
              '(ok, r) <- decode_buffer_absorb r (skipn n ptr) ;;
              if negb (ok : bool) then ret (0, rq_set_state FAILED r)
              else ret (blen ptr, r)
            else ret (blen ptr, r)
        end
  end.

(** curl_easy_perform (library contract): data is handed to the callback piece by piece; if
    the callback returns anything but the number of bytes it was given, the transfer ends with
    CURLE_WRITE_ERROR. *)
Fixpoint curl_deliver (E : env) (code : option N) (segs : list bytes) (fin : curlcode) (r : req)
  : M (curlcode * req) :=
  match segs with
  | [] => ret (fin, r)
  | s :: segs' =>
      '(n, r) <- store_http_data_cb E code s r ;;
      if n =? blen s then curl_deliver E code segs' fin r
      else ret (CURLE_WRITE_ERROR, r)
  end.
Definition curl_easy_perform (E : env) (url : bytes) (r : req) : M (curlcode * option N * req) :=
  fun w =>
    let p := e_server E url (w_nperf w) in
    let w := add_trace (TPerform url) (set_nperf (S (w_nperf w)) w) in
    ('(c, r) <- curl_deliver E (p_code p) (p_segs p) (p_end p) r ;; ret (c, p_code p, r)) w.

(** store-http.c:228-233 [curl_is_transient_error] *)
Definition curl_is_transient_error (c : curlcode) : bool :=
  match c with
  | CURLE_COULDNT_CONNECT | CURLE_COULDNT_RESOLVE_HOST | CURLE_OPERATION_TIMEDOUT => true
  | _ => false
  end.

(** store-http.c:235-258 [retried_curl_easy_perform]: [remaining] > 0 tries are left.  The
    response code of the last transfer is returned as well. *)
Fixpoint retried_curl_easy_perform (E : env) (url : bytes) (remaining : nat) (wait_us : N) (r : req)
  : M (curlcode * option N * req) :=
  match remaining with
  | O => halt    (* not reachable: called with 10, and the loop stops at 0 *)
  | S rem =>
      '(c, code, r) <- curl_easy_perform E url r ;;
      if negb (curl_is_transient_error c) then ret (c, code, r) else
      trace (TSleep wait_us) ;;;
      let wait_us := N.min ((2 * wait_us) mod M32) 10000000 in
      match rem with
      | O => ret (c, code, r)
      | S _ => retried_curl_easy_perform E url rem wait_us r
      end
  end.

(** store-http.c:210-226 [set_url]: the URL; a string longer than url_buf would be an overflow.
    curl_easy_setopt copies the string (allocation). *)
Definition chunk_url (hs : hstore) (id : bytes) : bytes :=
  hs_base hs ++ bs "/" ++ hex_byte (nth 0 id 0) ++ hex_byte (nth 1 id 0) ++ bs "/"
  ++ chunk_format_id id ++ bs ".cacnk"
  ++ (match hs_key hs with Some _ => bs ".enc" | None => [] end).
Definition set_url (hs : hstore) (id : bytes) : M (option bytes) :=
  let u := chunk_url hs id in
  if hs_url_cap hs <? blen u + 1 then ub else
  a <- alloc ;;
  ret (if (a : bool) then Some u else None).

(** store-http.c:260-271 [increase_error_counter]: the new counter and the return value *)
Definition increase_error_counter (err : N) : N * option N :=
  let err := (err + 1) mod M32 in
  (err, if ERROR_MAX <? err then None else Some 0).

Definition hs_after (hs : hstore) (r : req) (err : N) : hstore :=
  mkHStore (hs_base hs) (hs_url_cap hs) (rq_cap r) err (hs_key hs).

(** store-http.c:273-377 [store_http_get_chunk] *)
Definition store_http_get_chunk (E : env) (hs : hstore) (id out : bytes)
  : M (option N * bytes * hstore) :=
  u <- set_url hs id ;;
  match u with
  | None => ret (None, out, hs)
  | Some url =>
      (* encrypt_restart: the EVP calls can fail *)
      a <- (match hs_key hs with Some _ => alloc | None => ret true end) ;;
      if negb (a : bool) then ret (None, out, hs) else
      let r := mkReq STARTED out 0 [] (hs_dec_cap hs) []
                     (match hs_key hs with Some k => Some (encrypt_restart k id) | None => None end) in
      '(c, code, r) <- retried_curl_easy_perform E url CONNECT_TRIES 200000 r ;;
      let out := rq_out r in
      if curl_is_transient_error c then
        let '(err, rv) := increase_error_counter (hs_err hs) in ret (rv, out, hs_after hs r err)
      else
        match c with
        | CURLE_OK | CURLE_WRITE_ERROR =>
            match code with
            | None => ret (None, out, hs_after hs r (hs_err hs))
            | Some code =>
                if (code =? 404) || (code =? 410) then ret (Some 0, out, hs_after hs r (hs_err hs))
                else if 400 <=? code then
                  let '(err, rv) := increase_error_counter (hs_err hs) in
                  ret (rv, out, hs_after hs r err)
                else
                  match rq_state r with
                  | STARTED | FAILED => ret (Some 0, out, hs_after hs r (hs_err hs))
                  | STREAMING =>
                      actual <- chunk_calculate_id E (firstn (rq_written r) out) ;;
                      if negb (beq actual id) then ret (Some 0, out, hs_after hs r 0)
                      else ret (Some (N.of_nat (rq_written r)), out, hs_after hs r 0)
                  end
            end
        | _ => ret (None, out, hs_after hs r (hs_err hs))
        end
  end.

(** store-http.c:396-432 [store_handle_params]: the key of the last encrypt= parameter;
    [None] = -1.  Every iteration drops at least one character, so the fuel
    (1 + length) is never used up. *)
Fixpoint store_handle_params (E : env) (fuel : nat) (args : bytes) (key : option bytes)
  : M (option (option bytes)) :=
  match fuel with
  | O => halt
  | S fuel' =>
    match args with
    | [] => ret (Some key)
    | _ :: _ =>
        let next := strchr args 44 in
        let p := match next with Some n => firstn n args | None => args end in
        if startswith p (bs "encrypt=") then
          k <- encrypt_parse_keyspec E (skipn 8 p) ;;
          match k with
          | None => ret None
          | Some k =>
              a <- alloc ;;                                 (* encrypt_init *)
              if negb (a : bool) then ret None else
              match next with
              | Some n => store_handle_params E fuel' (skipn (S n) args) (Some k)
              | None => ret (Some (Some k))
              end
          end
        else ret None
    end
  end.

(** store-http.c:434 *)
Definition CHUNK_SUFFIX_MAX_LEN : N :=
  blen (bs "/8a39/8a39d2abd3999ab73c34db2476849cddf303ce389b35826850f9a700589b4a90.cacnk.enc").

(** store-http.c:465-466: one trailing slash is removed *)
Definition strip_slash (s : bytes) : bytes :=
  match strrchr s 47 with
  | Some p => if Nat.eqb (S p) (length s) then firstn p s else s
  | None => s
  end.

(** store-http.c:436-513 [store_http_new] ([None] = NULL) *)
Definition store_http_new (E : env) (baseurl : bytes) : M (option hstore) :=
  if negb (e_http_ok E) then ret None else
  a <- alloc ;;                                             (* calloc *)
  if negb (a : bool) then ret None else
  a <- alloc ;;                                             (* strdup *)
  if negb (a : bool) then ret None else
  let hash := strrchr baseurl 35 in
  k <- (match hash with
        | Some p => let args := skipn (S p) baseurl in
                    store_handle_params E (S (length args)) args None
        | None => ret (Some None)
        end) ;;
  match k with
  | None => ret None
  | Some key =>
      let tmp := match hash with Some p => firstn p baseurl | None => baseurl end in
      let tmp := strip_slash tmp in
      a <- alloc ;;                                         (* url_buf *)
      if negb (a : bool) then ret None else
      ret (Some (mkHStore tmp (blen tmp + CHUNK_SUFFIX_MAX_LEN + 1) 0 0 key))
  end.
