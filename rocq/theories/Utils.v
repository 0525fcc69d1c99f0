(** Model of /repo/utils.h and /repo/utils.c. *)
From Verif Require Import Base.
Local Open Scope N_scope.

(** ** utils.h:51-58 [rol32] *)
Definition M32 : N := 4294967296.
Definition rol32 (x : N) (n : N) : N :=
  let n := n mod 32 in
  if n =? 0 then x
  else N.lor (N.shiftl x n mod M32) (N.shiftr x (32 - n)).

(** ** utils.h:73-98 little-endian accessors; [d] is the byte array read from. *)
Definition byte_at (d : bytes) (i : nat) : N := nth i d 0.

(** utils.h:73-82 [unp64le] *)
Definition unp64le (d : bytes) : N :=
  N.lor (N.shiftl (byte_at d 7) 56)
 (N.lor (N.shiftl (byte_at d 6) 48)
 (N.lor (N.shiftl (byte_at d 5) 40)
 (N.lor (N.shiftl (byte_at d 4) 32)
 (N.lor (N.shiftl (byte_at d 3) 24)
 (N.lor (N.shiftl (byte_at d 2) 16)
 (N.lor (N.shiftl (byte_at d 1) 8)
        (N.shiftl (byte_at d 0) 0))))))).

(** utils.h:84-90 [unp32le] *)
Definition unp32le (d : bytes) : N :=
  N.lor (N.shiftl (byte_at d 3) 24)
 (N.lor (N.shiftl (byte_at d 2) 16)
 (N.lor (N.shiftl (byte_at d 1) 8)
        (N.shiftl (byte_at d 0) 0))).

(** utils.h:92-98 [p32le]: the four bytes stored *)
Definition p32le (v : N) : bytes :=
  [N.land (N.shiftr v 0) 255; N.land (N.shiftr v 8) 255;
   N.land (N.shiftr v 16) 255; N.land (N.shiftr v 24) 255].

(** ** I/O loops.

    The loops are written as functions of the list of answers the operating
    system gives; what is left of the list is returned.  [io_res] says how the
    loop ended. *)
Inductive io_res : Type := IoDone | IoFailed | IoAssert | IoHalt.

(** utils.c:55-78 [readall] and 80-104 [preadall]: [avail] is what the file
    contains from the current position/offset on, [len] the number of bytes
    still wanted, [got] what has been stored in the buffer so far.  A read at end
    of file returns 0, which is a short read.  *)
Fixpoint read_loop (avail : bytes) (len : N) (ev : list ioev) (got : bytes)
  : io_res * bytes * list ioev :=
  if len =? 0 then (IoDone, got, ev) else
  match ev with
  | [] => (IoHalt, got, [])
  | IoIntr :: ev' => read_loop avail len ev' got
  | IoErr :: ev' => (IoFailed, got, ev')
  | IoZero :: ev' => (IoFailed, got, ev')
  | IoN k :: ev' =>
      let n := N.min (N.of_nat (S k)) (N.min len (blen avail)) in
      if n =? 0 then (IoFailed, got, ev')
      else read_loop (skipn (N.to_nat n) avail) (len - n) ev'
                     (got ++ firstn (N.to_nat n) avail)
  end.

(** A write of [d] at [off] into a file with contents [f]; regular files grow
    (the gap is filled with zeros). *)
Definition file_write (f : bytes) (off : nat) (d : bytes) : bytes :=
  firstn off f ++ repeat 0 (off - length f) ++ d ++ skipn (off + length d) f.

(** One pwrite transferring at most [want] bytes: number of bytes the file can
    take at [off].  A block device has a fixed size (ENOSPC at its end); pwrite on
    other files fails (ESPIPE etc.). *)
Definition write_room (k : fkind) (f : bytes) (off : N) (want : N) : option N :=
  if OFF_LIMIT <=? off then None       (* EINVAL: negative off_t *)
  else match k with
       | KReg => Some want
       | KBlk => if blen f <=? off then None else Some (N.min want (blen f - off))
       | KOther => None
       end.

(** utils.c:130-153 [pwriteall]: [f] is the file, [wr] the list of transfers
    done so far (newest first). *)
Fixpoint pwrite_loop (k : fkind) (f : bytes) (off : N) (data : bytes)
    (ev : list ioev) (wr : list (N * bytes))
  : io_res * bytes * list (N * bytes) * list ioev :=
  match data with
  | [] => (IoDone, f, wr, ev)
  | _ :: _ =>
    match ev with
    | [] => (IoHalt, f, wr, [])
    | IoIntr :: ev' => pwrite_loop k f off data ev' wr
    | IoErr :: ev' => (IoFailed, f, wr, ev')
    | IoZero :: ev' => (IoAssert, f, wr, ev')
    | IoN m :: ev' =>
        match write_room k f off (N.min (N.of_nat (S m)) (blen data)) with
        | None => (IoFailed, f, wr, ev')
        | Some n =>
            let d := firstn (N.to_nat n) data in
            pwrite_loop k (file_write f (N.to_nat off) d) (off + n)
                        (skipn (N.to_nat n) data) ev' ((off, d) :: wr)
        end
    end
  end.

(** utils.c:106-128 [writeall] on an append-only output (file being created or
    a pipe): [out] is what has been written so far. *)
Fixpoint write_loop (out : bytes) (data : bytes) (ev : list ioev)
  : io_res * bytes * list ioev :=
  match data with
  | [] => (IoDone, out, ev)
  | _ :: _ =>
    match ev with
    | [] => (IoHalt, out, [])
    | IoIntr :: ev' => write_loop out data ev'
    | IoErr :: ev' => (IoFailed, out, ev')
    | IoZero :: ev' => (IoAssert, out, ev')
    | IoN m :: ev' =>
        let n := Nat.min (S m) (length data) in
        write_loop (out ++ firstn n data) (skipn n data) ev'
    end
  end.

(** Reads by position.  [readall ino pos len]: a [readall] (or [preadall]) of
    [len] bytes at [pos].  The result is [true] for 0 and [false] for -1,
    with the bytes that were stored in the buffer in either case.
    pread with an offset above the range of off_t fails (EINVAL). *)
Definition preadall (ino : nat) (len off : N) : M (bool * bytes) := fun w =>
  if len =? 0 then (Ok (true, []), w) else
  if OFF_LIMIT <=? off then
    match w_io w with [] => (Halt, w) | _ :: ev' => (Ok (false, []), set_io ev' w) end
  else
  match read_loop (skipn (N.to_nat (N.min off (blen (w_files w ino)))) (w_files w ino)) len (w_io w) [] with
  | (IoDone, got, ev') => (Ok (true, got), set_io ev' w)
  | (IoFailed, got, ev') => (Ok (false, got), set_io ev' w)
  | (IoAssert, _, ev') => (Abort, set_io ev' w)
  | (IoHalt, _, ev') => (Halt, set_io ev' w)
  end.

(** [readall] on a file descriptor at position [pos] (utils.c:55-78). *)
Definition readall (ino : nat) (pos len : N) : M (bool * bytes) := preadall ino len pos.

(** Ghost trace of a list of transfers. *)
Definition trace_writes (ino : nat) (wr : list (N * bytes)) (tr : list tev) : list tev :=
  map (fun p => TWrite ino (fst p) (snd p)) wr ++ tr.

(** utils.c:130-153 [pwriteall] *)
Definition pwriteall (E : env) (ino : nat) (data : bytes) (off : N) : M bool := fun w =>
  match pwrite_loop (e_kind E ino) (w_files w ino) off data (w_io w) [] with
  | (r, f', wr, ev') =>
      let w' := mkWorld (upd_file (w_files w) ino f') ev' (w_alloc w) (w_kcapi w)
                        (w_kev w) (w_nperf w) (trace_writes ino wr (w_trace w)) in
      match r with
      | IoDone => (Ok true, w')
      | IoFailed => (Ok false, w')
      | IoAssert => (Abort, w')
      | IoHalt => (Halt, w')
      end
  end.

(** utils.c:155-177 [fd_size] ([None] = -1); fstat/ioctl themselves do not fail. *)
Definition fd_size (E : env) (ino : nat) : M (option N) := fun w =>
  match e_kind E ino with
  | KReg | KBlk => (Ok (Some (blen (w_files w ino))), w)
  | KOther => (Ok None, w)
  end.

(** utils.c:179-224 [slurp_file] ([None] = NULL).  malloc(0) may return NULL, which
    the allocation oracle covers. *)
Definition slurp_file (E : env) (path : bytes) : M (option bytes) :=
  match e_open E path with
  | None => ret None
  | Some ino =>
      s <- fd_size E ino ;;
      match s with
      | None => ret None
      | Some size =>
          a <- alloc ;;
          if negb a then ret None else
          '(ok, data) <- readall ino 0 size ;;
          ret (if (ok : bool) then Some data else None)
      end
  end.

(** The C string stored in a NUL-terminated buffer. *)
Fixpoint cstr (l : bytes) : bytes :=
  match l with
  | [] => []
  | c :: l' => if c =? 0 then [] else c :: cstr l'
  end.

(** ** utils.c:235-246 [nibble] *)
Definition nibble (c : N) : option N :=
  if (48 <=? c) && (c <=? 57) then Some (c - 48)
  else let c := N.lor c 32 in
       if (97 <=? c) && (c <=? 102) then Some (c - 97 + 10) else None.

(** utils.c:248-266 [parse_hex]; [half] is [Some n] when the high nibble of the
    current output byte has been stored (i odd).  The result is what has been written
    to [out] ([None]: -1).  For an odd number of digits the last byte written has
    only its high nibble. *)
Fixpoint parse_hex_loop (s : bytes) (half : option N) (out : bytes) : option bytes :=
  match s with
  | [] => Some (match half with Some h => out ++ [h] | None => out end)
  | c :: s' =>
      if c =? 0 then Some (match half with Some h => out ++ [h] | None => out end) else
      match nibble c with
      | None => None
      | Some n =>
          match half with
          | None => parse_hex_loop s' (Some (N.shiftl n 4)) out
          | Some h => parse_hex_loop s' None (out ++ [N.lor h n])
          end
      end
  end.
Definition parse_hex (s : bytes) : option bytes := parse_hex_loop s None [].
(** The bytes [parse_hex] has stored to [out] when it returns, with success or not. *)
Fixpoint parse_hex_written (s : bytes) (half : option N) : bytes :=
  let stored := match half with Some h => [h] | None => [] end in
  match s with
  | [] => stored
  | c :: s' =>
      if c =? 0 then stored else
      match nibble c with
      | None => stored
      | Some n =>
          match half with
          | None => parse_hex_written s' (Some (N.shiftl n 4))
          | Some h => N.lor h n :: parse_hex_written s' None
          end
      end
  end.

(** ** utils.c:268-288 [chomp]: [i] is p - s, [q] the position recorded, and
    [inrun] says that the inner loop (lines 279-280) is running. *)
Definition is_eol (c : N) : bool := (c =? 13) || (c =? 10).
Fixpoint chomp_loop (s : bytes) (i : nat) (inrun : bool) (q : option nat) : option nat :=
  match s with
  | [] => q
  | c :: s' =>
      if is_eol c then chomp_loop s' (S i) true (if inrun then q else Some i)
      else chomp_loop s' (S i) false q
  end.
Definition chomp (s : bytes) : bytes :=
  match chomp_loop s 0 false None with
  | None => s
  | Some q => firstn q s
  end.

(** ** chunk.c:9-13 [chunk_format_id] (the C string, without its NUL) *)
Definition hex_digit (n : N) : N := if n <? 10 then n + 48 else n - 10 + 97.
Definition hex_byte (b : N) : bytes := [hex_digit (N.shiftr b 4); hex_digit (N.land b 15)].
Definition chunk_format_id (id : bytes) : bytes := flat_map hex_byte id.

(** strrchr/strchr: position of the last/first [c] in [s]. *)
Fixpoint strchr_from (s : bytes) (c : N) (i : nat) : option nat :=
  match s with
  | [] => None
  | x :: s' => if x =? c then Some i else strchr_from s' c (S i)
  end.
Definition strchr (s : bytes) (c : N) : option nat := strchr_from s c 0.
Fixpoint strrchr_from (s : bytes) (c : N) (i : nat) (r : option nat) : option nat :=
  match s with
  | [] => r
  | x :: s' => strrchr_from s' c (S i) (if x =? c then Some i else r)
  end.
Definition strrchr (s : bytes) (c : N) : option nat := strrchr_from s c 0 None.
