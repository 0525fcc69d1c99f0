(** What patchdd (C45-C47) and the progress display (C50) have to do. *)
From Verif Require Import Base SpecBasic SpecRun.
From Coq Require Import Sorting.Sorted.
Local Open Scope N_scope.

(** ** patchdd SOURCE DESTINATION; [s] is the source, [d] the old destination *)

(** The wanted result: the source, then what the destination holds beyond it. *)
Definition patched (s d : bytes) : bytes := s ++ skipn (length s) d.
(** Each byte is the old one or the source's; the size is the old one. *)
Definition mixed (s d g : bytes) : Prop :=
  length g = length d /\ forall i, byte_of g i = byte_of d i \/ ((i < length s)%nat /\ byte_of g i = byte_of s i).
(** Data is compared in blocks of 1 MiB.  A write of [x] at [o] lies in one block, not before the
    first difference [p] of that block, and writes the bytes of the source. *)
Definition block_write (s d : bytes) (o : N) (x : bytes) : Prop :=
  exists j p, let b := 1048576 * j in
    b <= p <= o /\ o + blen x <= N.min (b + 1048576) (blen s) /\
    (forall i, (i < length x)%nat -> byte_of x i = byte_of s (N.to_nat o + i)) /\
    byte_of s (N.to_nat p) <> byte_of d (N.to_nat p) /\
    forall q, b <= q < p -> byte_of s (N.to_nat q) = byte_of d (N.to_nat q).
(** The trace of a run writes to [dst] in this way only. *)
Definition block_writes (s d : bytes) (dst : nat) (tr : list tev) : Prop :=
  Forall (fun ev => match ev with TWrite i o x => i = dst /\ block_write s d o x | _ => True end) tr.
Definition no_write (tr : list tev) : Prop := Forall (fun ev => match ev with TWrite _ _ _ => False | _ => True end) tr.
(** The files named on the command line. *)
Definition src_of (E : env) (argv : list bytes) : option nat := e_open E (nth 1 argv []).
Definition dst_of (E : env) (argv : list bytes) : option nat := e_open_rw E (nth 2 argv []).
Definition asks_usage (argv : list bytes) : Prop := (length argv < 3)%nat \/ nth 1 argv [] = bs "-h" \/ nth 1 argv [] = bs "--help".

(** ** Progress: the percentages shown in a run (newest event first in [tr]), oldest first *)
Definition shown (tr : list tev) : list N := flat_map (fun ev => match ev with TProgress p => [p] | _ => [] end) (rev tr).
(** A display of [n] steps: within range, never decreasing, 100 at the [n]-th step and not before. *)
Definition good_display (n : nat) (l : list N) : Prop :=
  (length l <= n)%nat /\ Forall (fun p => p <= 100) l /\ StronglySorted N.le l /\
  forall i p, nth_error l i = Some p -> (p = 100 <-> S i = n).
(** patchdd shows one step per block of 1 MiB. *)
Definition blocks (size : N) : N := (size + 1048575) / 1048576.
(** A bar of 60 columns filled in proportion to the percentage (of the byte that is passed), full from 100 on. *)
Definition bar_of (percent : N) (bar : bytes) : Prop :=
  exists k, bar = repeat 61 k ++ repeat 32 (60 - k) /\ (k <= 60)%nat /\
    (percent <= 100 -> 100 * N.of_nat k <= 60 * percent < 100 * (N.of_nat k + 1)) /\ (100 <= percent -> k = 60%nat).
