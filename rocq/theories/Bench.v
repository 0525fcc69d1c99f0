(** Model of /repo/csn-bench.c and /repo/test/xorshift32.c.  The computation of the rate in double
    (csn-bench.c:68, 130) is in Rate.v. *)
From Verif Require Import Base Utils Sha Discr Chunker.
Local Open Scope N_scope.

(** ** test/xorshift32.c *)

(** test/xorshift32.c:6-14 [xorshift32] on the state (a uint32_t) *)
Definition xorshift32 (a : N) : N :=
  let x := a in
  let x := N.lxor x (N.shiftl x 13 mod M32) in
  let x := N.lxor x (N.shiftr x 17) in
  let x := N.lxor x (N.shiftl x 5 mod M32) in
  x.
(** a uint32_t in memory (little endian) *)
Definition word_bytes (x : N) : bytes := [x mod 256; x / 256 mod 256; x / 65536 mod 256; x / 16777216 mod 256].
(** test/xorshift32.c:21-24: [words] iterations *)
Fixpoint fill_words (words : nat) (a : N) : bytes * N :=
  match words with
  | O => ([], a)
  | S k => let a' := xorshift32 a in let (b, a2) := fill_words k a' in (word_bytes a' ++ b, a2)
  end.
(** test/xorshift32.c:16-25 [xorshift32_fill] *)
Definition xorshift32_fill (a : N) (len : nat) : outcome (bytes * N) :=
  if Nat.eqb (len mod 4) 0 then Ok (fill_words (len / 4) a) else Abort.
Definition SEED : N := 3735928559.                     (* csn-bench.c:44, 85: 0xdeadbeef *)

(** ** csn-bench.c *)

(** struct timespec; readings of the clock *)
Record timespec := mkTs { tv_sec : Z; tv_nsec : Z }.

(** csn-bench.c:11-18 [time_delta_ms] *)
Definition time_delta_ms (start end_ : timespec) : N :=
  let ret := ((tv_sec end_ - tv_sec start) mod 18446744073709551616)%Z in
  let ret := ((ret * 1000) mod 18446744073709551616)%Z in
  let ret := ((ret + Z.quot (tv_nsec end_ - tv_nsec start) 1000000) mod 18446744073709551616)%Z in
  Z.to_N ret.

(** csn-bench.c:63, 125 *)
Definition time_up (start end_ : timespec) : bool := (10 <=? tv_sec end_ - tv_sec start)%Z.

(** csn-bench.c:107-120: the loop over one buffer.  [ids] is a ghost: the ids computed so far.  [Halt]: not finished
    within [fuel] iterations. *)
Fixpoint bench_inner (E : env) (fuel : nat) (c : chunker) (buf : bytes) (ids : list bytes) : outcome (chunker * list bytes) :=
  match fuel with
  | O => Halt
  | S f =>
      match buf with
      | [] => Ok (c, ids)
      | _ =>
          match chunker_scan c buf with
          | Ok (None, c1) => Ok (c1, ids)
          | Ok (Some n, c1) => bench_inner E f (chunker_reset c1) (skipn n buf) (ids ++ [chunker_get_id E c1])
          | Abort => Abort | UB => UB | Halt => Halt
          end
      end
  end.

(** csn-bench.c:103-127: the rounds; [clocks] are the further readings of the clock.  The result: the rounds, the
    time, and (ghost) the ids computed and the buffers filled. *)
Record chunk_bench := mkCb { cb_count : N; cb_ms : N; cb_ids : list bytes; cb_bufs : list bytes }.
Fixpoint bench_rounds (E : env) (sz : nat) (start : timespec) (clocks : list timespec) (rng : N) (c : chunker) (count : N)
    (ids bufs : list bytes) : outcome chunk_bench :=
  match clocks with
  | [] => Halt
  | now :: clocks' =>
      match xorshift32_fill rng sz with
      | Ok (buf, rng') =>
          match bench_inner E (S (length buf)) c buf ids with
          | Ok (c', ids') =>
              if time_up start now then Ok (mkCb (count + 1) (time_delta_ms start now) ids' (bufs ++ [buf]))
              else bench_rounds E sz start clocks' rng' c' (count + 1) ids' (bufs ++ [buf])
          | Abort => Abort | UB => UB | Halt => Halt
          end
      | Abort => Abort | UB => UB | Halt => Halt
      end
  end.
(** csn-bench.c:77-134 [bench_chunker] with a buffer of [sz] bytes and the given parameters.  The buffer is not
    checked: [allocated = false] makes the memset at line 83 write to NULL. *)
Definition bench_chunker_with (E : env) (sz : nat) (p : params) (allocated : bool) (clocks : list timespec) : outcome chunk_bench :=
  if negb allocated then UB else
  match xorshift32_fill SEED sz with
  | Ok (_, rng) =>
      match chunker_init p with
      | Ok c =>
          match clocks with
          | [] => Halt
          | start :: clocks' => bench_rounds E sz start clocks' rng c 0 [] []
          end
      | Abort => Abort | UB => UB | Halt => Halt
      end
  | Abort => Abort | UB => UB | Halt => Halt
  end.
(** csn-bench.c:88-92 *)
Definition bench_params : params := mkParams (AVG_DEFAULT / 4) AVG_DEFAULT (AVG_DEFAULT * 4).
(** csn-bench.c:79: 1024*1024 *)
Definition bench_chunker (E : env) (allocated : bool) (clocks : list timespec) : outcome chunk_bench :=
  bench_chunker_with E (N.to_nat 1048576) bench_params allocated clocks.

(** csn-bench.c:56-59: [n] times filling and hashing a buffer *)
Fixpoint hash_some (E : env) (n : nat) (sz : nat) (rng : N) : M N :=
  match n with
  | O => ret rng
  | S k => '(buf, rng') <- lift (xorshift32_fill rng sz) ;; sha_once E buf ;;; hash_some E k sz rng'
  end.
(** csn-bench.c:54-65: until ten seconds have passed; result: the number of hashes, the time, the remaining readings *)
Fixpoint hash_until (E : env) (sz : nat) (start : timespec) (clocks : list timespec) (rng count : N) : M (N * N * N * list timespec) :=
  match clocks with
  | [] => halt
  | now :: clocks' =>
      rng' <- hash_some E 100 sz rng ;;
      if time_up start now then ret (count + 100, time_delta_ms start now, rng', clocks')
      else hash_until E sz start clocks' rng' (count + 100)
  end.
(** csn-bench.c:47-72: [rounds] block sizes *)
Fixpoint hash_rounds (E : env) (rounds : nat) (sz : nat) (clocks : list timespec) (rng : N) (acc : list (N * N)) : M (list (N * N)) :=
  match rounds with
  | O => ret acc
  | S k =>
      match clocks with
      | [] => halt
      | start :: clocks' =>
          '(count, ms, rng', clocks2) <- hash_until E sz start clocks' rng 0 ;;
          hash_rounds E k (Nat.div sz 4) clocks2 rng' (acc ++ [(count, ms)])
      end
  end.
(** csn-bench.c:20-75 [bench_hash] ([None]: EXIT_FAILURE); [driver]: CSN_KCAPI_DRIVER is set *)
Definition bench_hash (E : env) (driver : bool) (clocks : list timespec) : M (option (list (N * N))) :=
  ok <- (if driver then sha_kcapi_init E else ret true) ;;
  if negb (ok : bool) then ret None else
  a <- alloc ;;
  if negb (a : bool) then ret None else
  r <- hash_rounds E 3 (N.to_nat (AVG_DEFAULT * 4)) clocks SEED [] ;;
  ret (Some r).

(** csn-bench.c:136-173: what [main] does for a command line *)
Inductive bench_action := BUsage (status : N) | BHash | BChunker.
Definition bench_main (argv : list bytes) : bench_action :=
  match argv with
  | _ :: a :: _ =>
      if beq a (bs "-h") || beq a (bs "--help") then BUsage 0
      else if beq a (bs "hash") then BHash
      else if beq a (bs "chunker") then BChunker
      else BUsage 0                                                              (* csn-bench.c:172 *)
  | _ => BUsage 1
  end.
