(** Model of /repo/csn-tool.c.  The tool creates files, so it has a world of its own: a file
    system indexed by path strings (hard and symbolic links are not modelled; every file is a
    regular, readable one). *)
From Verif Require Import Base Utils Encrypt.
Local Open Scope N_scope.

Record tworld : Type := mkTW {
  tw_fs : bytes -> option bytes;     (** contents by path *)
  tw_io : list ioev;                 (** answers to read and write *)
  tw_ok : list bool;                 (** answers to malloc, open(O_CREAT) and EVP calls; success when exhausted *)
  tw_stdin : bytes;
  tw_stdout : bytes;
  tw_env : bytes -> option bytes }.

Definition fs_upd (fs : bytes -> option bytes) (p d : bytes) : bytes -> option bytes :=
  fun q => if beq q p then Some d else fs q.
Definition tw_set_fs f w := mkTW f (tw_io w) (tw_ok w) (tw_stdin w) (tw_stdout w) (tw_env w).
Definition tw_set_io e w := mkTW (tw_fs w) e (tw_ok w) (tw_stdin w) (tw_stdout w) (tw_env w).
Definition tw_set_ok e w := mkTW (tw_fs w) (tw_io w) e (tw_stdin w) (tw_stdout w) (tw_env w).
Definition tw_set_stdin s w := mkTW (tw_fs w) (tw_io w) (tw_ok w) s (tw_stdout w) (tw_env w).
Definition tw_set_stdout s w := mkTW (tw_fs w) (tw_io w) (tw_ok w) (tw_stdin w) s (tw_env w).

Definition TM (A : Type) : Type := tworld -> outcome A * tworld.
Definition tret {A} (a : A) : TM A := fun w => (Ok a, w).
Definition tbind {A B} (m : TM A) (k : A -> TM B) : TM B := fun w =>
  match m w with
  | (Ok a, w') => k a w'
  | (Abort, w') => (Abort, w')
  | (UB, w') => (UB, w')
  | (Halt, w') => (Halt, w')
  end.
Declare Scope tmonad_scope.
Notation "x <-- m ;; k" := (tbind m (fun x => k))
  (at level 61, m at next level, right associativity) : tmonad_scope.
Local Open Scope tmonad_scope.

Definition tok : TM bool := fun w =>
  match tw_ok w with
  | [] => (Ok true, w)
  | b :: r => (Ok b, tw_set_ok r w)
  end.

(** utils.c:179-224 [slurp_file] *)
Definition tslurp (path : bytes) : TM (option bytes) := fun w =>
  match tw_fs w path with
  | None => (Ok None, w)
  | Some content =>
      (a <-- tok ;;
       if negb (a : bool) then tret None else
       fun w => match read_loop content (blen content) (tw_io w) [] with
                | (IoDone, got, ev) => (Ok (Some got), tw_set_io ev w)
                | (IoFailed, _, ev) => (Ok None, tw_set_io ev w)
                | (IoAssert, _, ev) => (Abort, tw_set_io ev w)
                | (IoHalt, _, ev) => (Halt, tw_set_io ev w)
                end) w
  end.

(** encrypt.c:145-195 [encrypt_parse_keyspec] *)
Definition tparse_keyspec (spec : bytes) : TM (option bytes) :=
  match keyspec_src spec with
  | KeyLit s => tret (decode_key s)
  | KeyEnv v => fun w => match tw_env w v with
                         | None => (Ok None, w)
                         | Some s => (Ok (decode_key s), w)
                         end
  | KeyFile p =>
      s <-- tslurp p ;;
      match s with
      | None => tret None
      | Some text => tret (decode_key (chomp (cstr text)))
      end
  | KeyBad => tret None
  end.

Definition ends_with (s suf : bytes) : bool :=
  (length suf <=? length s)%nat && beq (skipn (length s - length suf) s) suf.

(** csn-tool.c:12-36 [chunk_id_from_path] *)
Definition chunk_id_from_path (path : bytes) : option bytes :=
  let base := match strrchr path 47 with Some p => skipn (S p) path | None => path end in
  let n := length base in
  if negb (Nat.eqb n 70) && negb (Nat.eqb n 74) then None
  else if negb (ends_with base (bs ".cacnk")) && negb (ends_with base (bs ".cacnk.enc")) then None
  else parse_hex (firstn 64 base).

(** csn-tool.c:48-73: the default output path ([None]: -1) *)
Definition default_output (input : bytes) : option bytes :=
  let len := blen input in
  if ends_with input (bs ".cacnk") then
    if 4091 <? len then None else Some (input ++ bs ".enc")
  else if ends_with input (bs ".cacnk.enc") then
    if 4095 <? len then None else Some (firstn (length input - 4) input)
  else None.

(** csn-tool.c:106: writing to the file just created, or to standard output *)
Definition twriteall (out : bytes) (data : bytes) : TM bool := fun w =>
  let is_stdout := beq out (bs "-") in
  let cur := if is_stdout then tw_stdout w
             else match tw_fs w out with Some d => d | None => [] end in
  match write_loop cur data (tw_io w) with
  | (r, d, ev) =>
      let w := tw_set_io ev w in
      let w := if is_stdout then tw_set_stdout d w else tw_set_fs (fs_upd (tw_fs w) out d) w in
      match r with
      | IoDone => (Ok true, w)
      | IoFailed => (Ok false, w)
      | IoAssert => (Abort, w)
      | IoHalt => (Halt, w)
      end
  end.

(** csn-tool.c:97-106: open the output file; O_TRUNC | O_CREAT *)
Definition topen_out (out : bytes) : TM bool :=
  if beq out (bs "-") then tret true else
  a <-- tok ;;
  if negb (a : bool) then tret false
  else fun w => (Ok true, tw_set_fs (fs_upd (tw_fs w) out []) w).

(** csn-tool.c:91: encrypt_do on the whole file.  The length parameter of EVP_Cipher is an unsigned
    int, so that only this many bytes of the buffer are transformed. *)
Definition tcrypt (key id data : bytes) : bytes :=
  let n := N.to_nat (blen data mod M32) in
  fst (encrypt_do (encrypt_restart key id) (firstn n data)) ++ skipn n data.

(** csn-tool.c:38-122 [encrypt_one]: 0 = [true], -1 = [false] *)
Definition encrypt_one (key input : bytes) (output : option bytes) : TM bool :=
  match chunk_id_from_path input with
  | None => tret false
  | Some id =>
      match (match output with Some o => Some o | None => default_output input end) with
      | None => tret false
      | Some out =>
          fun w =>
          match tw_fs w out with
          | Some _ => (Ok true, w)                           (* line 75-76 *)
          | None =>
              (a <-- tok ;;                                  (* encrypt_restart *)
               if negb (a : bool) then tret false else
               b <-- tslurp input ;;
               match b with
               | None => tret false
               | Some data =>
                   e <-- tok ;;                              (* encrypt_do *)
                   if negb (e : bool) then tret false else
                   let data := tcrypt key id data in
                   o <-- topen_out out ;;
                   if negb (o : bool) then tret false else twriteall out data
               end) w
          end
      end
  end.

(** fgets(line, PATH_MAX, stdin): up to 4095 bytes, up to and including a newline *)
Fixpoint fgets_split (n : nat) (s : bytes) : bytes * bytes :=
  match n, s with
  | S n', c :: s' =>
      if c =? 10 then ([c], s')
      else let '(l, r) := fgets_split n' s' in (c :: l, r)
  | _, _ => ([], s)
  end.

(** csn-tool.c:148-152: the loop over standard input; every iteration takes at least one byte *)
Fixpoint crypt_lines (fuel : nat) (key : bytes) : TM bool := fun w =>
  match fuel with
  | O => (Halt, w)
  | S fuel' =>
      match tw_stdin w with
      | [] => (Ok true, w)
      | s =>
          let '(line, rest) := fgets_split (N.to_nat 4095) s in
          (ok <-- encrypt_one key (chomp (cstr line)) None ;;
           if negb (ok : bool) then tret false else crypt_lines fuel' key) (tw_set_stdin rest w)
      end
  end.

(** csn-tool.c:124-169 [do_crypt]; argv[0] is "crypt" *)
Definition do_crypt (argv : list bytes) : TM N :=
  match argv with
  | _ :: spec :: rest =>
      if (2 <? length rest)%nat || beq spec (bs "-h") || beq spec (bs "--help") then tret 1 else
      k <-- tparse_keyspec spec ;;
      match k with
      | None => tret 1
      | Some key =>
          a <-- tok ;;                                       (* encrypt_init *)
          if negb (a : bool) then tret 1 else
          match rest with
          | [] => ok <-- (fun w => crypt_lines (S (length (tw_stdin w))) key w) ;;
                  tret (if (ok : bool) then 0 else 1)
          | input :: outs =>
              ok <-- encrypt_one key input (match outs with o :: _ => Some o | [] => None end) ;;
              tret (if (ok : bool) then 0 else 1)
          end
      end
  | _ => tret 1
  end.

(** csn-tool.c:192-207 [main] *)
Definition tool_main (argv : list bytes) : TM N :=
  match argv with
  | _ :: cmd :: _ =>
      if beq cmd (bs "-h") || beq cmd (bs "--help") then tret 0
      else if beq cmd (bs "crypt") then do_crypt (skipn 1 argv)
      else tret 0                                             (* line 206 *)
  | _ => tret 1
  end.
