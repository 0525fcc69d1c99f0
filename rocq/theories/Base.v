(** Basic types shared by every module of the model: bytes, outcomes, the
    environment (libraries, files, servers), the world (mutable part of the
    environment) and the state monad in which the C code is transcribed.

    Source: /repo (florolf/casync-nano).  Line numbers refer to that tree. *)
From Coq Require Export List NArith ZArith Arith Bool.
Export ListNotations.
From Coq Require String Ascii.
Export String.StringSyntax.

(** ** Bytes and C strings *)

(** A [uint8_t] (or an unsigned char of a C string) is an [N] below 256; a buffer or a
    file is a list of them.  That bytes are below 256 is a hypothesis
    ([bytes_ok]) only where it matters. *)
Notation bytes := (list N).
Definition bytes_ok (l : bytes) : Prop := Forall (fun b => (b < 256)%N) l.

(** String literal of the C source as bytes. *)
Definition bs (s : String.string) : bytes :=
  map Ascii.N_of_ascii (String.list_ascii_of_string s).
Arguments bs s%string_scope.

(** memcmp(a,b,n)==0 / strcmp(a,b)==0 on byte strings (utils.h:47 [streq]). *)
Fixpoint beq (a b : bytes) : bool :=
  match a, b with
  | [], [] => true
  | x :: a', y :: b' => (x =? y)%N && beq a' b'
  | _, _ => false
  end.

(** utils.h:49 [startswith]. *)
Fixpoint startswith (a pre : bytes) : bool :=
  match pre, a with
  | [], _ => true
  | y :: pre', x :: a' => (x =? y)%N && startswith a' pre'
  | _ :: _, [] => false
  end.

(** ** Outcomes of a C function or of a whole run

    [Ok a]   the function returned (the C return value is encoded in [a]);
    [Abort]  a [u_assert] failed and the process aborted (utils.h:20-31, built
             without NDEBUG, as CMakeLists.txt does by default);
    [UB]     undefined behaviour;
    [Halt]   the process did not get any further: the I/O schedule ended here.
             This is a process that is still running, was killed or hit a crash. *)
Inductive outcome (A : Type) : Type :=
| Ok (a : A) | Abort | UB | Halt.
Arguments Ok {A} a. Arguments Abort {A}. Arguments UB {A}. Arguments Halt {A}.

(** ** Events: answers of the operating system *)

(** Answer to one read/pread/write/pwrite call. *)
Inductive ioev : Type :=
| IoN (k : nat)   (** transfers at most k+1 bytes (fewer at end of file / device) *)
| IoIntr          (** -1 with errno = EINTR *)
| IoErr           (** -1 with another errno *)
| IoZero.         (** returns 0 although more could be transferred *)

(** Answer to one send/recv call on the kernel crypto socket (sha.c). *)
Inductive kev : Type :=
| KN (k : nat)    (** send: accepts at most k+1 bytes; recv: returns the whole digest *)
| KShort (k : nat)(** send: accepts at most k+1 bytes; recv: returns another number of bytes than 32 *)
| KIntr | KErr.

(** curl result codes that the code distinguishes (store-http.c:228-233, 318). *)
Inductive curlcode : Type :=
| CURLE_OK | CURLE_COULDNT_CONNECT | CURLE_COULDNT_RESOLVE_HOST
| CURLE_OPERATION_TIMEDOUT | CURLE_WRITE_ERROR | CURLE_OTHER.

(** What one curl_easy_perform does: response code as returned by
    CURLINFO_RESPONSE_CODE ([None]: getinfo fails), data handed to the write
    callback call by call, and the result if no callback refuses data. *)
Record perf : Type := mkPerf {
  p_code : option N;
  p_segs : list bytes;
  p_end  : curlcode }.

(** File types distinguished by fd_size (utils.c:167-174). *)
Inductive fkind : Type := KReg | KBlk | KOther.

(** Ghost trace of externally visible actions, newest first. *)
Inductive tev : Type :=
| TQuery (i : nat) (id : bytes)       (** store number i of the chain was asked for id *)
| TAnswer (i : nat) (r : option N)    (** and answered with r bytes, 0 for not found, None for failure *)
| TPerform (url : bytes)              (** curl_easy_perform with this URL *)
| TSleep (us : N)                     (** usleep *)
| TScan (ino : nat)                   (** a local store was scanned (store_scan) *)
| TWrite (ino : nat) (off : N) (data : bytes)   (** a pwrite transferred data *)
| TPut (ino : nat) (off : N) (data : bytes)     (** target_write was called with data *)
| TSync (ino : nat)                   (** fsync succeeded *)
| TProgress (percent : N).            (** show_progress was called with this percentage *)

(** ** Index entries (index.h:8-13); they occur in the library contracts. *)
Record entry : Type := mkEntry {
  en_start : N; en_len : N; en_flags : N; en_id : bytes }.

(** memcmp order on ids (index.c:69-75). *)
Fixpoint id_leb (a b : bytes) : bool :=
  match a, b with
  | [], _ => true
  | _ :: _, [] => false
  | x :: a', y :: b' => (x <? y)%N || ((x =? y)%N && id_leb a' b')
  end.

(** ** Environment: libraries and everything that does not change *)
Record env : Type := mkEnv {
  e_H : bytes -> bytes;                              (** SHA-256 *)
  e_qsort : list entry -> list entry;                (** qsort by id *)
  e_bsearch : list entry -> bytes -> option nat;     (** bsearch by id: position *)
  (** ZSTD_decompressStream as a function of all calls since ZSTD_initDStream
      (newest first; input and output room of each), the input and the output room;
      [None]: error; [Some (consumed, produced)] otherwise. *)
  e_zstep : list (bytes * nat) -> bytes -> nat -> option (nat * bytes);
  e_server : bytes -> nat -> perf;                   (** n-th perform, with this URL *)
  e_open : bytes -> option nat;                      (** open(path, O_RDONLY): inode *)
  e_open_rw : bytes -> option nat;                   (** open(path, O_RDWR): inode *)
  e_kind : nat -> fkind;                             (** file type of an inode *)
  e_getenv : bytes -> option bytes;
  e_kcapi_ok : bool;                                 (** AF_ALG socket can be set up *)
  e_http_ok : bool;                                  (** curl/zstd set-up calls succeed *)
  e_interactive : bool }.                            (** stdout is a tty and the log level is below debug *)

(** ** World: the part of the environment that changes during a run *)
Record world : Type := mkWorld {
  w_files : nat -> bytes;       (** contents by inode *)
  w_io : list ioev;
  w_alloc : list bool;          (** results of allocations; success when exhausted *)
  w_kcapi : bool;               (** sha.c:22 kcapi_fd >= 0 *)
  w_kev : list kev;
  w_nperf : nat;                (** number of curl_easy_perform calls so far *)
  w_trace : list tev }.

Definition set_files f w := mkWorld f (w_io w) (w_alloc w) (w_kcapi w) (w_kev w) (w_nperf w) (w_trace w).
Definition set_io e w := mkWorld (w_files w) e (w_alloc w) (w_kcapi w) (w_kev w) (w_nperf w) (w_trace w).
Definition set_alloc a w := mkWorld (w_files w) (w_io w) a (w_kcapi w) (w_kev w) (w_nperf w) (w_trace w).
Definition set_kcapi k e w := mkWorld (w_files w) (w_io w) (w_alloc w) k e (w_nperf w) (w_trace w).
Definition set_nperf n w := mkWorld (w_files w) (w_io w) (w_alloc w) (w_kcapi w) (w_kev w) n (w_trace w).
Definition add_trace t w := mkWorld (w_files w) (w_io w) (w_alloc w) (w_kcapi w) (w_kev w) (w_nperf w) (t :: w_trace w).
Definition upd_file (f : nat -> bytes) (i : nat) (d : bytes) : nat -> bytes :=
  fun j => if Nat.eqb j i then d else f j.

(** ** Monad *)
Definition M (A : Type) : Type := world -> outcome A * world.
Definition ret {A} (a : A) : M A := fun w => (Ok a, w).
Definition bind {A B} (m : M A) (k : A -> M B) : M B := fun w =>
  match m w with
  | (Ok a, w') => k a w'
  | (Abort, w') => (Abort, w')
  | (UB, w') => (UB, w')
  | (Halt, w') => (Halt, w')
  end.
Definition abort {A} : M A := fun w => (Abort, w).
Definition ub {A} : M A := fun w => (UB, w).
Definition halt {A} : M A := fun w => (Halt, w).
(** utils.h:27-31 [u_assert] (NDEBUG not defined). *)
Definition u_assert (b : bool) : M unit := if b then ret tt else abort.

Declare Scope monad_scope.
Delimit Scope monad_scope with monad.
Notation "x <- m ;; k" := (bind m (fun x => k))
  (at level 61, m at next level, right associativity) : monad_scope.
Notation "' p <- m ;; k" := (bind m (fun x => match x with p => k end))
  (at level 61, p pattern, m at next level, right associativity) : monad_scope.
Notation "m ;;; k" := (bind m (fun _ => k)) (at level 61, right associativity) : monad_scope.
Open Scope monad_scope.

Definition get_files : M (nat -> bytes) := fun w => (Ok (w_files w), w).
Definition trace (t : tev) : M unit := fun w => (Ok tt, add_trace t w).

(** malloc/calloc/realloc: true = success. *)
Definition alloc : M bool := fun w =>
  match w_alloc w with
  | [] => (Ok true, w)
  | b :: r => (Ok b, set_alloc r w)
  end.

(** ** Common list helpers *)
Definition slice (off len : nat) (l : bytes) : bytes := firstn len (skipn off l).
Definition blen (l : bytes) : N := N.of_nat (length l).
(** memcpy into the beginning of a buffer. *)
Definition overlay (src buf : bytes) : bytes := src ++ skipn (length src) buf.
(** memcpy into a buffer at position [off]. *)
Definition overlay_at (off : nat) (src buf : bytes) : bytes :=
  firstn off buf ++ src ++ skipn (off + length src) buf.
Fixpoint upd_nth {A} (n : nat) (x : A) (l : list A) : list A :=
  match n, l with
  | _, [] => []
  | O, _ :: t => x :: t
  | S n', h :: t => h :: upd_nth n' x t
  end.

Definition UINT32_MAX : N := 4294967295.
Definition SIZE_MOD : N := 18446744073709551616.   (* 2^64 *)
Definition OFF_LIMIT : N := 9223372036854775808.   (* 2^63: larger offsets are negative off_t *)
Definition CHUNK_ID_LEN : nat := 32.               (* chunk.h:9 *)

(** A pure computation with an outcome, run in the monad. *)
Definition lift {A} (o : outcome A) : M A := fun w => (o, w).
