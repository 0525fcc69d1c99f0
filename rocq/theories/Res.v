(** Model of what the programs own: file descriptors, heap blocks, library
    handles and the stack buffers that hold key material.

    The other model files follow the data and leave ownership out (the C heap
    is not represented there).  This file walks through the same functions a
    second time and keeps only acquisitions, uses and releases.  Every condition
    that decides which path is taken and that depends on data or on the system
    (an open, a malloc, a read, a comparison) is answered by an arbitrary list
    of answers, so that every path through the C code is a path here.
    Using or releasing an object that is not live is [UB].  Objects carry the
    bytes that matter for the question where copies of the key end up; other
    contents are left out (empty).  Assertions are left out as well: they are
    the subject of the other files. *)
From Verif Require Import Base Utils Encrypt.
Local Open Scope nat_scope.

(** File descriptors, heap blocks, CURL handles, ZSTD streams, EVP cipher
    contexts, stack buffers. *)
Inductive rkind := KFd | KMem | KCurl | KZstd | KCipher | KStack.
Definition rkind_eqb (a b : rkind) : bool :=
  match a, b with
  | KFd, KFd | KMem, KMem | KCurl, KCurl | KZstd, KZstd | KCipher, KCipher | KStack, KStack => true
  | _, _ => false
  end.
(** [o_id] names the object for ever: numbers of released objects are not reused. *)
Record robj := mkObj { o_id : nat; o_kind : rkind; o_data : bytes }.
(** An answer: success, or failure; a failing read has stored [k] bytes. *)
Inductive rans := Yes | No (k : nat).
(** [r_gone]: the objects given back, with the contents they had then.
    [r_peak]: the largest number of descriptors open at one time. *)
Record rst := mkRst {
  r_live : list robj; r_next : nat; r_ans : list rans; r_gone : list robj; r_peak : nat }.
Definition r_init (a : list rans) : rst := mkRst [] 0 a [] 0.

Definition RM (A : Type) := rst -> outcome A * rst.
Definition rret {A} (a : A) : RM A := fun st => (Ok a, st).
Definition rbind {A B} (m : RM A) (k : A -> RM B) : RM B := fun st =>
  match m st with
  | (Ok a, st') => k a st'
  | (Abort, st') => (Abort, st')
  | (UB, st') => (UB, st')
  | (Halt, st') => (Halt, st')
  end.
Declare Scope res_scope.
Notation "x <~ m ;; k" := (rbind m (fun x => k))
  (at level 61, m at next level, right associativity) : res_scope.
Notation "m ;;~ k" := (rbind m (fun _ => k)) (at level 61, right associativity) : res_scope.
Local Open Scope res_scope.

Definition is_fd (o : robj) : bool := rkind_eqb (o_kind o) KFd.
Definition fds (l : list robj) : nat := length (filter is_fd l).
Definition same (id : nat) (o : robj) : bool := Nat.eqb (o_id o) id.
Definition lookup (id : nat) (k : rkind) (l : list robj) : option robj :=
  find (fun o => same id o && rkind_eqb (o_kind o) k) l.

(** The next answer; when the list is used up everything succeeds. *)
Definition answer : RM rans := fun st =>
  match r_ans st with
  | [] => (Ok Yes, st)
  | a :: t => (Ok a, mkRst (r_live st) (r_next st) t (r_gone st) (r_peak st))
  end.
Definition ask : RM bool := a <~ answer ;; rret (match a with Yes => true | No _ => false end).
(** A new object with the contents [d]. *)
Definition create (k : rkind) (d : bytes) : RM nat := fun st =>
  let l := mkObj (r_next st) k d :: r_live st in
  (Ok (r_next st), mkRst l (S (r_next st)) (r_ans st) (r_gone st) (Nat.max (r_peak st) (fds l))).
(** open, malloc, ... : may fail. *)
Definition acquire (k : rkind) (d : bytes) : RM (option nat) :=
  ok <~ ask ;; if ok then i <~ create k d ;; rret (Some i) else rret None.
(** close, free, ... : the object must be live and of that kind. *)
Definition release (id : nat) (k : rkind) : RM unit := fun st =>
  match lookup id k (r_live st) with
  | None => (UB, st)
  | Some o => (Ok tt, mkRst (filter (fun o => negb (same id o)) (r_live st)) (r_next st) (r_ans st)
                            (o :: r_gone st) (r_peak st))
  end.
(** Any use of an object; its contents. *)
Definition touch (id : nat) (k : rkind) : RM bytes := fun st =>
  match lookup id k (r_live st) with
  | None => (UB, st)
  | Some o => (Ok (o_data o), st)
  end.
(** Storing into an object. *)
Definition put (id : nat) (k : rkind) (d : bytes) : RM unit := fun st =>
  match lookup id k (r_live st) with
  | None => (UB, st)
  | Some _ => (Ok tt, mkRst (map (fun o => if same id o then mkObj (o_id o) (o_kind o) d else o) (r_live st))
                            (r_next st) (r_ans st) (r_gone st) (r_peak st))
  end.
(** crypto_wipe(p, n) *)
Definition zeroed (n : nat) (d : bytes) : bytes := repeat 0%N (Nat.min n (length d)) ++ skipn n d.
Definition wipe (id : nat) (k : rkind) (n : nat) : RM unit :=
  d <~ touch id k ;; put id k (zeroed n d).

(** ** utils.c:179-224 [slurp_file]; [c] is what the file contains. *)
Definition slurp (c : bytes) (text : bool) : RM (option nat) :=
  f <~ acquire KFd [] ;;
  match f with
  | None => rret None
  | Some fd =>
      touch fd KFd ;;~
      ok <~ ask ;;                                        (* 191 fd_size *)
      if negb ok then release fd KFd ;;~ rret None else
      b <~ acquire KMem [] ;;
      match b with
      | None => release fd KFd ;;~ rret None
      | Some buf =>
          touch fd KFd ;;~
          a <~ answer ;;                                  (* 203 readall *)
          match a with
          | No k => put buf KMem (firstn k c) ;;~ release buf KMem ;;~ release fd KFd ;;~ rret None
          | Yes => put buf KMem (if text then c ++ [0%N] else c) ;;~
                   release fd KFd ;;~ rret (Some buf)
          end
      end
  end.

(** ** encrypt.c:145-195 [encrypt_parse_keyspec].

    [SText]: the text given with "key:" or found in the environment;
    [SFile]: "file:" and the contents of that file; [SNone]: neither.
    [key] is the caller's buffer. *)
Inductive rsrc := SText (s : bytes) | SFile (c : bytes) | SNone.
(** Lines 174-186, [decode_key_buf] of Encrypt.v on the caller's buffer. *)
Definition decode (key : nat) (s : bytes) : RM bool :=
  d <~ touch key KStack ;;
  put key KStack (snd (decode_key_buf d s)) ;;~ rret (fst (decode_key_buf d s)).
(** utils.c:268-288 [chomp] in memory: the text [s] remains, followed by a NUL. *)
Definition chomped (d : bytes) : bytes :=
  let n := length (chomp (cstr d)) in firstn n d ++ 0%N :: skipn (S n) d.
Definition keyspec (key : nat) (src : rsrc) : RM bool :=
  match src with
  | SNone => rret false
  | SText s => decode key s
  | SFile c =>
      b <~ slurp c true ;;
      match b with
      | None => rret false
      | Some buf =>
          d <~ touch buf KMem ;;
          put buf KMem (chomped d) ;;~
          r <~ decode key (chomp (cstr d)) ;;
          wipe buf KMem (length (chomp (cstr d))) ;;~
          release buf KMem ;;~
          rret r
      end
  end.

(** ** encrypt.c:87-98 [encrypt_init]: [ctx] holds the struct encrypt_ctx (of which
    only the key is represented), [key] the key. *)
Definition enc_init (ctx : nat) (ck : rkind) (key : nat) : RM (option nat) :=
  c <~ acquire KCipher [] ;;
  match c with
  | None => rret None
  | Some ci => d <~ touch key KStack ;; put ctx ck d ;;~ rret (Some ci)
  end.
(** ** encrypt.c:68-83 [hchacha20] and 100-128 [encrypt_restart].  The working block of
    hchacha20 gives the key away and is shown as a copy of it. *)
Definition enc_restart (ci ctx : nat) (ck : rkind) (nonce : bytes) : RM bool :=
  d <~ touch ctx ck ;;
  block <~ create KStack d ;;
  wipe block KStack 64 ;;~
  release block KStack ;;~
  sub <~ create KStack (hchacha20 d (firstn 16 nonce)) ;;
  touch ci KCipher ;;~
  ok1 <~ ask ;;                                           (* 111 *)
  ok <~ (if ok1 then ask else rret false) ;;              (* 116 *)
  wipe sub KStack (length (hchacha20 d (firstn 16 nonce))) ;;~      (* 124: sizeof(subkey) *)
  release sub KStack ;;~
  rret ok.
(** encrypt.c:130-135 [encrypt_close]: sizeof(struct encrypt_ctx) covers the key. *)
Definition enc_close (ci ctx : nat) (ck : rkind) : RM unit :=
  release ci KCipher ;;~
  d <~ touch ctx ck ;;
  wipe ctx ck (length d).

(** ** csn-tool.c:38-122 [encrypt_one].  [j_nonce]: the chunk id; [j_data]: what the input
    contains; [j_stdout]: the output path is "-". *)
Record rjob := mkJob { j_nonce : bytes; j_data : bytes; j_stdout : bool }.
Definition job (ci ctx : nat) (j : rjob) : RM bool :=
  ok <~ ask ;;                                            (* 43 *)
  if negb ok then rret false else
  ok <~ ask ;;                                            (* 49-73 *)
  if negb ok then rret false else
  ex <~ ask ;;                                            (* 75 *)
  if ex then rret true else
  ok <~ enc_restart ci ctx KStack (j_nonce j) ;;
  if negb ok then rret false else
  b <~ slurp (j_data j) false ;;
  match b with
  | None => rret false
  | Some buf =>
      touch ci KCipher ;;~
      touch buf KMem ;;~
      ok <~ ask ;;                                        (* 91 *)
      if negb ok then release buf KMem ;;~ rret false else
      f <~ (if j_stdout j then rret (Some None)
            else f <~ acquire KFd [] ;; rret (match f with Some i => Some (Some i) | None => None end)) ;;
      match f with
      | None => release buf KMem ;;~ rret false
      | Some fd =>
          match fd with Some i => touch i KFd | None => rret [] end ;;~
          touch buf KMem ;;~
          ok <~ ask ;;                                    (* 108 *)
          match fd with Some i => release i KFd | None => rret tt end ;;~
          release buf KMem ;;~
          rret ok
      end
  end.
(** csn-tool.c:146-152: until the first failure *)
Fixpoint jobs (ci ctx : nat) (l : list rjob) : RM bool :=
  match l with
  | [] => rret true
  | j :: t => ok <~ job ci ctx j ;; if ok then jobs ci ctx t else rret false
  end.
(** ** csn-tool.c:124-169 [do_crypt] after the argument check *)
Definition crypt (src : rsrc) (l : list rjob) : RM bool :=
  key <~ create KStack key_buf_new ;;
  ok <~ keyspec key src ;;
  if negb ok then release key KStack ;;~ rret false else
  ec <~ create KStack [] ;;
  c <~ enc_init ec KStack key ;;
  match c with
  | None => release ec KStack ;;~ release key KStack ;;~ rret false
  | Some ci =>
      r <~ jobs ci ec l ;;
      enc_close ci ec KStack ;;~
      release ec KStack ;;~
      release key KStack ;;~
      rret r
  end.

(** ** store-http.c *)
(** [h_cipher]: Some when [encrypted] is set.  The structure is shown as two blocks that live and
    end together: [h_hs] carries encrypt_ctx.key, [h_name] the field s.name. *)
Record rhttp := mkHttp { h_hs : nat; h_name : nat; h_base : nat; h_url : nat; h_curl : nat; h_zstd : nat;
                         h_dec : option nat; h_cipher : option nat }.
Inductive rparam := PEncrypt (s : rsrc) | PBad.
(** store-http.c:396-432 [store_handle_params]; [cur]: the cipher context so far, which
    line 89 of encrypt.c overwrites. *)
Fixpoint handle_params (hs : nat) (cur : option nat) (ps : list rparam) : RM (bool * option nat) :=
  match ps with
  | [] => rret (true, cur)
  | PBad :: _ => rret (false, cur)
  | PEncrypt s :: t =>
      key <~ create KStack key_buf_new ;;
      ok <~ keyspec key s ;;
      if negb ok then release key KStack ;;~ rret (false, cur) else
      c <~ enc_init hs KMem key ;;
      release key KStack ;;~
      match c with
      | None => rret (false, cur)
      | Some ci => handle_params hs (Some ci) t
      end
  end.
(** store-http.c:480-493: five options *)
Fixpoint setopts (curl n : nat) : RM bool :=
  match n with
  | O => rret true
  | S n => touch curl KCurl ;;~ ok <~ ask ;; if ok then setopts curl n else rret false
  end.
(** store-http.c:473: at most STORE_NAME_MAX - 1 bytes (store.h:8) *)
Definition store_name (arg : bytes) : bytes := firstn 127 arg.
(** store-http.c:436-513 [store_http_new]; [ps] are the parameters that [arg] contains after
    the '#'.  The copy of line 447 is shown as [arg] for good: the places where lines 405,
    459 and 463 put a zero (',', '#' and a last '/') are left out. *)
Definition http_new (arg : bytes) (ps : list rparam) : RM (option rhttp) :=
  ok <~ ask ;;                                            (* 440 *)
  if negb ok then rret None else
  h <~ acquire KMem [] ;;
  match h with
  | None => rret None
  | Some hs =>
  name <~ create KMem [] ;;
  t <~ acquire KMem arg ;;                                (* 447 *)
  match t with
  | None => release name KMem ;;~ release hs KMem ;;~ rret None
  | Some tmp =>
  r <~ handle_params hs None ps ;;
  if negb (fst r) then release tmp KMem ;;~ release name KMem ;;~ release hs KMem ;;~ rret None else
  u <~ acquire KMem [] ;;
  match u with
  | None => release tmp KMem ;;~ release name KMem ;;~ release hs KMem ;;~ rret None
  | Some url =>
  put name KMem (store_name arg) ;;~                      (* 473 *)
  c <~ acquire KCurl [] ;;
  match c with
  | None => release url KMem ;;~ release tmp KMem ;;~ release name KMem ;;~ release hs KMem ;;~ rret None
  | Some curl =>
  ok <~ setopts curl 5 ;;
  z <~ (if ok then acquire KZstd [] else rret None) ;;
  match z with
  | None => release curl KCurl ;;~ release url KMem ;;~ release tmp KMem ;;~
            release name KMem ;;~ release hs KMem ;;~ rret None
  | Some zstd => rret (Some (mkHttp hs name tmp url curl zstd None (snd r)))
  end end end end end.
(** store-http.c:63-102 [decode_buffer_absorb], 106-147 [handle_data]: one call of the data
    callback; a failing realloc leaves the old block. *)
Definition absorb (s : rhttp) : RM (bool * rhttp) :=
  need <~ ask ;;                                          (* 180/195, 65: a larger buffer is wanted *)
  r <~ (if need then
          match h_dec s with
          | None => b <~ acquire KMem [] ;; rret (match b with Some _ => true | None => false end, b)
          | Some b => touch b KMem ;;~ ok <~ ask ;; rret (ok, Some b)
          end
        else rret (true, h_dec s)) ;;
  let s := mkHttp (h_hs s) (h_name s) (h_base s) (h_url s) (h_curl s) (h_zstd s) (snd r) (h_cipher s) in
  if negb (fst r) then rret (false, s) else
  match h_cipher s with Some ci => touch ci KCipher | None => rret [] end ;;~
  touch (h_zstd s) KZstd ;;~
  ok <~ ask ;;
  rret (ok, s).
Fixpoint absorbs (n : nat) (s : rhttp) : RM rhttp :=
  match n with
  | O => rret s
  | S n => r <~ absorb s ;; if fst r then absorbs n (snd r) else rret (snd r)
  end.
(** store-http.c:273-377 [store_http_get_chunk]; [segs]: how often the data callback is
    called.  The result says whether the store goes on (return value >= 0). *)
Definition http_get (s : rhttp) (nonce : bytes) (segs : nat) : RM (bool * rhttp) :=
  touch (h_zstd s) KZstd ;;~
  touch (h_url s) KMem ;;~ touch (h_base s) KMem ;;~ touch (h_curl s) KCurl ;;~
  ok <~ ask ;;                                            (* 281 *)
  if negb ok then rret (false, s) else
  ok <~ match h_cipher s with Some ci => enc_restart ci (h_hs s) KMem nonce | None => rret true end ;;
  if negb ok then rret (false, s) else
  ok <~ ask ;;                                            (* 301 *)
  if negb ok then rret (false, s) else
  s <~ absorbs segs s ;;
  touch (h_curl s) KCurl ;;~
  ok <~ ask ;;                                            (* 308-376 *)
  rret (ok, s).
(** store-http.c:379-394 [store_http_free] *)
Definition http_free (s : rhttp) : RM unit :=
  release (h_base s) KMem ;;~
  release (h_url s) KMem ;;~
  match h_dec s with Some b => release b KMem | None => rret tt end ;;~
  release (h_zstd s) KZstd ;;~
  release (h_curl s) KCurl ;;~
  match h_cipher s with Some ci => enc_close ci (h_hs s) KMem | None => rret tt end ;;~
  release (h_name s) KMem ;;~
  release (h_hs s) KMem.

(** ** store-local.c *)
(** [l_idx]: the pointer idx.entries, which may dangle; [l_special]: the file is neither
    regular nor a block device, so fd_size fails (utils.c:150-177). *)
Record rlocal := mkLocal { l_ls : nat; l_fd : nat; l_idx : option nat; l_special : bool }.
Definition with_idx (s : rlocal) (i : option nat) : rlocal := mkLocal (l_ls s) (l_fd s) i (l_special s).
(** store-local.c:103-128 [store_scan] *)
Definition scan (s : rlocal) : RM (bool * rlocal) :=
  touch (l_fd s) KFd ;;~
  if l_special s then rret (false, s) else                (* 107 *)
  i <~ acquire KMem [] ;;                                 (* 111, index.c:12 *)
  match i with
  | None => rret (false, with_idx s None)
  | Some i => touch (l_fd s) KFd ;;~ touch i KMem ;;~
              ok <~ ask ;; rret (ok, with_idx s (Some i)) (* 124 *)
  end.
(** store-local.c:49-101 [store_sideload_index] *)
Definition sideload (s : rlocal) : RM (bool * rlocal) :=
  f <~ acquire KFd [] ;;
  match f with
  | None => rret (false, s)
  | Some fd =>
      touch fd KFd ;;~
      ok <~ ask ;;                                        (* 62-76 *)
      if negb ok then release fd KFd ;;~ rret (false, s) else
      i <~ acquire KMem [] ;;
      match i with
      | None => release fd KFd ;;~ rret (false, with_idx s None)
      | Some i =>
          touch fd KFd ;;~ touch i KMem ;;~
          ok <~ ask ;;                                    (* 88 *)
          if ok then release fd KFd ;;~ rret (true, with_idx s (Some i))
          else release i KMem ;;~ release fd KFd ;;~ rret (false, with_idx s (Some i))
      end
  end.
(** store-local.c:193-237 [store_local_new] *)
Definition local_new (special index : bool) : RM (option rlocal) :=
  l <~ acquire KMem [] ;;
  match l with
  | None => rret None
  | Some ls =>
  f <~ acquire KFd [] ;;
  match f with
  | None => release ls KMem ;;~ rret None
  | Some fd =>
      let s := mkLocal ls fd None special in
      r <~ (if index then sideload s else rret (false, s)) ;;
      if fst r then rret (Some (snd r)) else
      r <~ scan (snd r) ;;
      if fst r then rret (Some (snd r)) else release ls KMem ;;~ rret None
  end end.
(** free(idx->entries), index.c:22-27: freeing NULL does nothing *)
Definition idx_cleanup (i : option nat) : RM unit :=
  match i with Some i => release i KMem | None => rret tt end.
(** store-local.c:130-183 [store_local_get_chunk], lines 136 to 162; [fresh]: the index is the
    result of a scan, so every entry carries INDEX_FLAG_VALIDATED (line 121) and line 153 is
    taken.  The result is None when line 176 is reached, else whether the store goes on. *)
Definition local_try (fresh : bool) (s : rlocal) : RM (option bool) :=
  match l_idx s with
  | None => fun st => (UB, st)
  | Some i =>
      touch i KMem ;;~
      hit <~ ask ;;
      if negb hit then rret (Some true) else
      small <~ ask ;;                                     (* 141 *)
      if negb small then rret (Some false) else
      touch (l_fd s) KFd ;;~
      ok <~ ask ;;                                        (* 147 *)
      if negb ok then rret (Some false) else
      ok <~ (if fresh then rret true else ask) ;;         (* 152-162 *)
      rret (if ok then Some true else None)
  end.
(** Lines 176-182; after a successful scan the second pass cannot come back here. *)
Definition local_get (s : rlocal) : RM (bool * rlocal) :=
  r <~ local_try false s ;;
  match r with
  | Some ok => rret (ok, s)
  | None =>
      idx_cleanup (l_idx s) ;;~
      r <~ scan s ;;
      if negb (fst r) then rret r else
      r' <~ local_try true (snd r) ;;
      rret (match r' with Some ok => ok | None => true end, snd r)
  end.
(** store-local.c:185-191 [store_local_free] *)
Definition local_free (s : rlocal) : RM unit :=
  idx_cleanup (l_idx s) ;;~ release (l_ls s) KMem.

(** ** target.c *)
Record rtarget := mkTarget { t_obj : nat; t_fd : nat; t_idx : option nat }.
(** target.c:90-121 [target_new] *)
Definition target_make : RM (option rtarget) :=
  t <~ acquire KMem [] ;;
  match t with
  | None => rret None
  | Some t =>
  f <~ acquire KFd [] ;;
  match f with
  | None => release t KMem ;;~ rret None
  | Some fd => rret (Some (mkTarget t fd None))
  end end.
(** target.c:123-136 [target_as_store] *)
Definition target_store (t : rtarget) : RM (option rtarget) :=
  match t_idx t with
  | Some _ => rret (Some t)
  | None =>
      i <~ acquire KMem [] ;;
      match i with
      | None => rret None
      | Some i => rret (Some (mkTarget (t_obj t) (t_fd t) (Some i)))
      end
  end.
(** target.c:28-44, 46-71, 73-88 and 14-26: reading, writing, and the index when there is one *)
Definition target_use (t : rtarget) : RM bool :=
  touch (t_obj t) KMem ;;~
  touch (t_fd t) KFd ;;~
  match t_idx t with Some i => touch i KMem | None => rret [] end ;;~
  ask.

(** ** store.c *)
(** A store as the chain sees it; the target is a store of its own. *)
Inductive rstore := RTarget | RHttp (s : rhttp) | RLocal (s : rlocal).
Record rchain := mkChain { c_sc : nat; c_arr : nat; c_space : nat; c_stores : list (rstore * bool) }.
(** store.c:83-111 [store_chain_new] *)
Definition chain_new (hint : nat) : RM (option rchain) :=
  s <~ acquire KMem [] ;;
  match s with
  | None => rret None
  | Some sc =>
  a <~ acquire KMem [] ;;
  match a with
  | None => release sc KMem ;;~ rret None
  | Some arr => rret (Some (mkChain sc arr (Nat.max 1 hint) []))
  end end.
(** store.c:113-134 [store_chain_append] *)
Definition chain_append (c : rchain) (s : rstore) : RM (bool * rchain) :=
  touch (c_sc c) KMem ;;~ touch (c_arr c) KMem ;;~
  let full := Nat.leb (c_space c) (length (c_stores c)) in
  ok <~ (if full then ask else rret true) ;;
  if negb ok then rret (false, c) else
  rret (true, mkChain (c_sc c) (c_arr c) (if full then c_space c * 2 else c_space c)
                      (c_stores c ++ [(s, true)])).
(** store_get_chunk (store.h:18-21) *)
Definition store_get (t : rtarget) (nonce : bytes) (segs : nat) (s : rstore) : RM (bool * rstore) :=
  match s with
  | RTarget => ok <~ target_use t ;; rret (ok, s)
  | RHttp h => r <~ http_get h nonce segs ;; rret (fst r, RHttp (snd r))
  | RLocal l => r <~ local_get l ;; rret (fst r, RLocal (snd r))
  end.
(** store.c:26-62 [store_chain_get_chunk]: the stores that are active, in order, until one
    has the chunk; a failing one is deactivated. *)
Fixpoint chain_get (t : rtarget) (nonce : bytes) (segs : nat) (l : list (rstore * bool))
  : RM (list (rstore * bool)) :=
  match l with
  | [] => rret []
  | (s, false) :: l => l' <~ chain_get t nonce segs l ;; rret ((s, false) :: l')
  | (s, true) :: l =>
      r <~ store_get t nonce segs s ;;
      if negb (fst r) then l' <~ chain_get t nonce segs l ;; rret ((snd r, false) :: l')
      else found <~ ask ;;
           if found then rret ((snd r, true) :: l)
           else l' <~ chain_get t nonce segs l ;; rret ((snd r, true) :: l')
  end.
(** store_free (store.h:23-27): the target's [free] is NULL *)
Definition store_free (s : rstore) : RM unit :=
  match s with RTarget => rret tt | RHttp h => http_free h | RLocal l => local_free l end.
Fixpoint stores_free (l : list (rstore * bool)) : RM unit :=
  match l with
  | [] => rret tt
  | (s, _) :: l => store_free s ;;~ stores_free l
  end.
(** store.c:64-81 [store_chain_free] *)
Definition chain_free (c : rchain) : RM unit :=
  touch (c_arr c) KMem ;;~ stores_free (c_stores c) ;;~ release (c_arr c) KMem ;;~ release (c_sc c) KMem.

(** ** main.c *)
(** A store argument: the target again, an HTTP store with its parameters, a local store. *)
Inductive rarg := ATarget | AHttp (arg : bytes) (ps : list rparam) | ALocal (special index : bool).
(** main.c:86-122 [append_store_from_arg] *)
Definition append_arg (t : rtarget) (c : rchain) (a : rarg) : RM (option (rtarget * rchain)) :=
  r <~ match a with
       | ATarget => r <~ target_store t ;; rret (match r with Some t => Some (t, RTarget) | None => None end)
       | AHttp arg ps => r <~ http_new arg ps ;; rret (match r with Some s => Some (t, RHttp s) | None => None end)
       | ALocal sp ix => r <~ local_new sp ix ;; rret (match r with Some s => Some (t, RLocal s) | None => None end)
       end ;;
  match r with
  | None => rret None
  | Some (t, s) =>
      r <~ chain_append c s ;;
      rret (if fst r then Some (t, snd r) else None)
  end.
Fixpoint append_args (t : rtarget) (c : rchain) (l : list rarg) : RM (option (rtarget * rchain)) :=
  match l with
  | [] => rret (Some (t, c))
  | a :: l => r <~ append_arg t c a ;;
              match r with None => rret None | Some (t, c) => append_args t c l end
  end.
(** main.c:32-84 [entry_cb], once per index entry: the entry is read from the index; either
    the target has the chunk, or it is repeated, or the chain is asked; then it is written.
    Each request carries the chunk id and the number of data callbacks. *)
Fixpoint entries (ix : nat) (t : rtarget) (l : list (bytes * nat)) (c : list (rstore * bool))
  : RM (bool * list (rstore * bool)) :=
  match l with
  | [] => rret (true, c)
  | (nonce, segs) :: l =>
      touch ix KFd ;;~
      ok <~ ask ;;
      if negb ok then rret (false, c) else
      there <~ target_use t ;;
      if there then entries ix t l c else
      again <~ ask ;;
      c <~ (if again then rret c else chain_get t nonce segs c) ;;
      ok <~ ask ;;                                        (* 59 *)
      if negb ok then rret (false, c) else
      ok <~ target_use t ;;
      if negb ok then rret (false, c) else entries ix t l c
  end.
(** main.c:124-174 [csn] (142 to 171; [hint] = argc - 3 + 1), 189-268 [casync] (210 to 265;
    [hint] = (argc - 4) / 2 + 1), and 305-317 of [main].  The kernel hash of lines 133-140 is
    [kcapi] below. *)
Definition run (hint : nat) (args : list rarg) (reqs : list (bytes * nat)) : RM bool :=
  f <~ acquire KFd [] ;;
  match f with
  | None => rret false
  | Some ix =>
  touch ix KFd ;;~
  ok <~ ask ;;                                            (* 148 / 216 *)
  if negb ok then rret false else
  t <~ target_make ;;
  match t with
  | None => rret false
  | Some t =>
  c <~ chain_new hint ;;
  match c with
  | None => rret false
  | Some c =>
  r <~ append_args t c args ;;
  match r with
  | None => rret false
  | Some (t, c) =>
      r <~ entries ix t reqs (c_stores c) ;;
      if negb (fst r) then rret false else
      chain_free (mkChain (c_sc c) (c_arr c) (c_space c) (snd r)) ;;~
      rret true
  end end end end.

(** ** sha.c: the kernel's hash interface; the argument is the static kcapi_fd. *)
(** sha.c:24-71 [sha_kcapi_init] *)
Definition kcapi_init (long : bool) : RM (option nat) :=
  a <~ acquire KFd [] ;;
  match a with
  | None => rret None
  | Some alg =>
      if long then release alg KFd ;;~ rret None else     (* 42 *)
      ok <~ ask ;;                                        (* 51 *)
      if negb ok then release alg KFd ;;~ rret None else
      touch alg KFd ;;~
      f <~ acquire KFd [] ;;                              (* 57 *)
      match f with
      | None => release alg KFd ;;~ rret None
      | Some fd => release alg KFd ;;~ rret (Some fd)
      end
  end.
(** sha.c:73-80 [sha_kcapi_deinit] *)
Definition kcapi_deinit (k : option nat) : RM (option nat) :=
  match k with
  | None => rret None
  | Some fd => release fd KFd ;;~ rret None
  end.
(** sha.c:82-125 [sha_once], [n] times *)
Fixpoint shas (n : nat) (k : option nat) : RM (option nat) :=
  match n with
  | O => rret k
  | S n =>
      k <~ match k with
           | None => rret None
           | Some fd => touch fd KFd ;;~ ok <~ ask ;; if ok then rret k else kcapi_deinit k
           end ;;
      shas n k
  end.
(** A program that uses the kernel hash [n] times and then gives it up. *)
Definition kcapi (long : bool) (n : nat) : RM unit :=
  k <~ kcapi_init long ;; k <~ shas n k ;; k <~ kcapi_deinit k ;; k <~ kcapi_deinit k ;; rret tt.
