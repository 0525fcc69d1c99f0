(** Model of /repo/main.c. *)
From Verif Require Import Base Utils Sha Chunker Caibx Index StoreLocal Target StoreHttp Chain Ui.
Local Open Scope N_scope.

(** main.c:37 sizeof(buf) *)
Definition BUF_SIZE : N := 262144.

(** The state of main.c: the static variables of the file (lines 22-30) and of entry_cb (34-37, 77).
    [m_store] is [None] while the pointer [store] is NULL.  [m_buf] has BUF_SIZE bytes. *)
Record mstate : Type := mkM {
  m_store : option (list substore); m_target : target;
  m_last_id : option bytes;            (* have_last_id / last_id *)
  m_resuming : bool; m_buf : bytes; m_skipped : N; m_handled : N }.

Definition m_set (st : mstate) (s : option (list substore)) (t : target) (l : option bytes)
  (r : bool) (b : bytes) : mstate :=
  mkM s t l r b (m_skipped st) (m_handled st).

(** main.c:73-83: the label progress *)
Definition entry_progress (E : env) (n_entries : N) (st : mstate) : M (bool * mstate) :=
  if e_interactive E then
    let h := (m_handled st + 1) mod M32 in
    trace (TProgress (main_percent h n_entries)) ;;;
    ret (true, mkM (m_store st) (m_target st) (m_last_id st) (m_resuming st) (m_buf st)
                   (m_skipped st) h)
  else ret (true, st).

(** main.c:57-71: from the test of last_id on *)
Definition entry_fetch_write (E : env) (n_entries : N) (offset len : N) (id : bytes) (st : mstate)
  : M (bool * mstate) :=
  let have := match m_last_id st with Some l => beq l id | None => false end in
  '(ok, st) <-
    (if have then ret (true, st) else
     match m_store st with
     | None => ub                                        (* store is NULL *)
     | Some chain =>
         '(r, buf, chain, t) <- store_chain_get_chunk E chain (m_target st) id (m_buf st) ;;
         let good := match r with Some n => n =? len | None => false end in
         if good then ret (true, m_set st (Some chain) t (Some id) (m_resuming st) buf)
         else ret (false, m_set st (Some chain) t (m_last_id st) (m_resuming st) buf)
     end) ;;
  if negb (ok : bool) then ret (false, st) else
  '(ok, t) <- target_write E (m_target st) (m_buf st) len offset id ;;
  let st := m_set st (m_store st) t (m_last_id st) (m_resuming st) (m_buf st) in
  if negb (ok : bool) then ret (false, st)
  else entry_progress E n_entries st.

(** main.c:32-84 [entry_cb] *)
Definition entry_cb (E : env) (n_entries : N) (offset len : N) (id : bytes) (st : mstate)
  : M (bool * mstate) :=
  if m_resuming st then
    if BUF_SIZE <? len then ret (false, st) else
    '(r, buf, t) <- target_check_chunk E (m_target st) (m_buf st) len offset id ;;
    match r with
    | Some true =>
        entry_progress E n_entries
          (mkM (m_store st) t (m_last_id st) true buf (m_skipped st + 1) (m_handled st))
    | _ =>
        entry_fetch_write E n_entries offset len id
          (m_set st (m_store st) t (m_last_id st) false buf)
    end
  else entry_fetch_write E n_entries offset len id st.

(** How a store argument is interpreted (main.c:90-109). *)
Inductive store_arg : Type :=
| ArgTarget | ArgHttp (url : bytes) | ArgLocal (path : bytes) (index : option bytes).
Definition classify_arg (target_path arg : bytes) : store_arg :=
  if beq arg target_path then ArgTarget
  else if startswith arg (bs "http") then ArgHttp arg
  else match strchr arg 58 with
       | Some p => ArgLocal (firstn p arg) (Some (skipn (S p) arg))
       | None => ArgLocal arg None
       end.

(** Store chain under construction: space, stores, target. *)
Record building : Type := mkB { b_space : N; b_chain : list substore; b_target : target }.

(** main.c:86-122 [append_store_from_arg] ([None] = -1) *)
Definition append_store_from_arg (E : env) (target_path : bytes) (cp : params) (n : N)
    (b : building) (arg : bytes) : M (option building) :=
  r <- (match classify_arg target_path arg with
        | ArgTarget =>
            '(ok, t) <- target_as_store (b_target b) n ;;
            ret (if (ok : bool) then Some (STarget, t) else None)
        | ArgHttp url =>
            h <- store_http_new E url ;;
            ret (match h with Some hs => Some (SHttp hs, b_target b) | None => None end)
        | ArgLocal path ip =>
            l <- store_local_new E path ip cp ;;
            ret (match l with Some ls => Some (SLocal ls, b_target b) | None => None end)
        end) ;;
  match r with
  | None => ret None
  | Some (s, t) =>
      '(ok, space, chain) <- store_chain_append (b_space b) (b_chain b) s ;;
      ret (if (ok : bool) then Some (mkB space chain t) else None)
  end.

Fixpoint append_stores (E : env) (target_path : bytes) (cp : params) (n : N)
    (b : building) (args : list bytes) : M (option building) :=
  match args with
  | [] => ret (Some b)
  | a :: args' =>
      r <- append_store_from_arg E target_path cp n b a ;;
      match r with
      | None => ret None
      | Some b => append_stores E target_path cp n b args'
      end
  end.

(** Result of csn()/casync(): what main continues with. *)
Record setup : Type := mkSetup {
  su_index : nat; su_params : params; su_n : N; su_target : target;
  su_store : option (list substore) }.
Inductive init_res : Type := InitOk (s : setup) | InitFail | InitExit (code : N).

(** main.c:124-174 [csn]; argv includes argv[0] *)
Definition csn (E : env) (argv : list bytes) : M init_res :=
  match argv with
  | _ :: index_path :: target_path :: _ :: _ =>
      k <- (match e_getenv E (bs "CSN_KCAPI_DRIVER") with
            | Some _ => sha_kcapi_init E
            | None => ret true
            end) ;;
      if negb (k : bool) then ret InitFail else
      match e_open E index_path with
      | None => ret InitFail
      | Some ino =>
          h <- caibx_load_header E ino ;;
          match h with
          | None => ret InitFail
          | Some (cp, n) =>
              t <- target_new E target_path ;;
              match t with
              | None => ret InitFail
              | Some t =>
                  s <- store_chain_new (N.of_nat (length argv) - 3 + 1) ;;
                  match s with
                  | None => ret InitFail
                  | Some space =>
                      b <- append_stores E target_path cp n (mkB space [] t) (skipn 3 argv) ;;
                      match b with
                      | None => ret InitFail
                      | Some b => ret (InitOk (mkSetup ino cp n (b_target b) (Some (b_chain b))))
                      end
                  end
              end
          end
      end
  | _ => ret InitFail
  end.

(** ** getopt_long with the options of main.c:197-203 and the short option string "h"

    GNU getopt: options may appear anywhere; "--" ends them; the arguments that are not options
    are gathered (in order) at the end of argv.  Long names may be abbreviated if unambiguous. *)
Inductive optname : Type := OHelp | OStore | OSeed | OSeedOutput.
Definition long_options : list (bytes * bool * optname) :=
  [ (bs "help", false, OHelp); (bs "store", true, OStore);
    (bs "seed", true, OSeed); (bs "seed-output", true, OSeedOutput) ].
Definition find_long (name : bytes) : option (bool * optname) :=
  match filter (fun o => beq (fst (fst o)) name) long_options with
  | o :: _ => Some (snd (fst o), snd o)
  | [] => match filter (fun o => startswith (fst (fst o)) name) long_options with
          | [o] => Some (snd (fst o), snd o)
          | _ => None
          end
  end.
Inductive optres : Type :=
| OptHelp | OptStore (arg : bytes) | OptIgnored | OptBad.
Definition opt_of (o : optname) (arg : option bytes) : optres :=
  match o with
  | OHelp => OptHelp
  | OStore | OSeed => match arg with Some a => OptStore a | None => OptBad end
  | OSeedOutput => OptIgnored
  end.

(** The options of argv[1..] in order (up to one that ends the program) and, if all of them
    were good, the other arguments in order. *)
Fixpoint getopt_all (args : list bytes) : list optres * list bytes :=
  match args with
  | [] => ([], [])
  | a :: args' =>
      if beq a (bs "--") then ([], args')
      else if startswith a (bs "--") then
        let body := skipn 2 a in
        let '(name, value) :=
          match strchr body 61 with
          | Some p => (firstn p body, Some (skipn (S p) body))
          | None => (body, None)
          end in
        match find_long name with
        | None => ([OptBad], args')
        | Some (false, o) =>
            match value with
            | Some _ => ([OptBad], args')
            | None => let '(os, ns) := getopt_all args' in (opt_of o None :: os, ns)
            end
        | Some (true, o) =>
            match value with
            | Some v => let '(os, ns) := getopt_all args' in (opt_of o (Some v) :: os, ns)
            | None =>
                match args' with
                | [] => ([OptBad], [])
                | v :: args'' => let '(os, ns) := getopt_all args'' in (opt_of o (Some v) :: os, ns)
                end
            end
        end
      else if startswith a (bs "-") && negb (beq a (bs "-")) then
        (* only the first character matters: 'h' returns, anything else is an error *)
        if startswith a (bs "-h") then ([OptHelp], args') else ([OptBad], args')
      else let '(os, ns) := getopt_all args' in (os, a :: ns)
  end.

(** main.c:236-255: the option loop *)
Inductive opts_res : Type := OptsDone (b : building) | OptsHelp (b : building) | OptsFail | OptsExit.
Fixpoint casync_opts (E : env) (target_path : bytes) (cp : params) (n : N) (b : building)
    (os : list optres) : M opts_res :=
  match os with
  | [] => ret (OptsDone b)
  | OptHelp :: _ => ret (OptsHelp b)
  | OptBad :: _ => ret OptsExit
  | OptIgnored :: os' => casync_opts E target_path cp n b os'
  | OptStore a :: os' =>
      r <- append_store_from_arg E target_path cp n b a ;;
      match r with
      | None => ret OptsFail
      | Some b => casync_opts E target_path cp n b os'
      end
  end.

(** main.c:189-268 [casync]; argv includes argv[0] *)
Definition casync (E : env) (argv : list bytes) : M init_res :=
  let argc := length argv in
  if Nat.ltb argc 3 then ret (InitExit 1) else
  let index_path := nth (argc - 2) argv [] in
  let target_path := nth (argc - 1) argv [] in
  match e_open E index_path with
  | None => ret InitFail
  | Some ino =>
      h <- caibx_load_header E ino ;;
      match h with
      | None => ret InitFail
      | Some (cp, n) =>
          t <- target_new E target_path ;;
          match t with
          | None => ret InitFail
          | Some t =>
              s <- store_chain_new (N.of_nat ((argc - 4) / 2 + 1)) ;;
              match s with
              | None => ret InitFail
              | Some space =>
                  let '(os, ns) := getopt_all (skipn 1 argv) in
                  r <- casync_opts E target_path cp n (mkB space [] t) os ;;
                  match r with
                  | OptsFail => ret InitFail
                  | OptsExit => ret (InitExit 1)
                  | OptsHelp b => ret (InitOk (mkSetup ino cp n (b_target b) None))      (* main.c:238-240 *)
                  | OptsDone b =>
                      if Nat.ltb (length ns) 3 || negb (beq (nth 0 ns []) (bs "extract"))
                      then ret (InitExit 1)
                      else ret (InitOk (mkSetup ino cp n (b_target b) (Some (b_chain b))))
                  end
              end
          end
      end
  end.

(** POSIX basename (libgen.h) *)
Fixpoint strip_trailing_slashes (l : bytes) : bytes :=   (* on the reversed string *)
  match l with
  | c :: l' => if c =? 47 then strip_trailing_slashes l' else l
  | [] => []
  end.
Definition basename (s : bytes) : bytes :=
  match s with
  | [] => bs "."
  | _ => match rev (strip_trailing_slashes (rev s)) with
         | [] => bs "/"
         | s' => match strrchr s' 47 with Some p => skipn (S p) s' | None => s' end
         end
  end.

(** State of entry_cb before the first call. *)
Definition initial_mstate (su : setup) : mstate :=
  mkM (su_store su) (su_target su) None true (repeat 0 (N.to_nat BUF_SIZE)) 0 0.

(** main.c:303-317: synchronisation and clean-up; the result is the exit status *)
Definition run_sync (E : env) (su : setup) : M N :=
  '(ok, st) <- caibx_iterate_entries (entry_cb E (su_n su)) (su_index su) (su_params su) (su_n su)
                                     (initial_mstate su) ;;
  if negb (ok : bool) then ret 1 else
  match m_store st with
  | None => ub                                              (* store_free(NULL) *)
  | Some chain => store_chain_free chain ;;; ret 0
  end.

(** main.c:270-318 [main]: exit status *)
Definition main (E : env) (argv : list bytes) : M N :=
  let app := basename (nth 0 argv []) in
  r <- (if beq app (bs "csn") then csn E argv
        else if beq app (bs "casync") then casync E argv
        else ret (InitExit 1)) ;;
  match r with
  | InitFail => ret 1
  | InitExit c => ret c
  | InitOk su => run_sync E su
  end.
