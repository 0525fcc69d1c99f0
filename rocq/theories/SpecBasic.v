(** Specifications for the helpers of utils.c / sha.c, independent of the model's functions. *)
From Verif Require Import Base.
Local Open Scope N_scope.

(** Value of a little-endian byte string. *)
Fixpoint le_value (d : bytes) : N :=
  match d with [] => 0 | b :: d' => b + 256 * le_value d' end.

(** Hex digits and the strings denoting byte strings (two digits per byte, either case). *)
Definition hex_alphabet : bytes := bs "0123456789abcdefABCDEF".
Definition is_hex (c : N) : Prop := In c hex_alphabet.
Definition lower_alphabet : bytes := bs "0123456789abcdef".
Definition upper_alphabet : bytes := bs "0123456789ABCDEF".
Definition digit_value (c v : N) : Prop :=
  nth_error lower_alphabet (N.to_nat v) = Some c \/ nth_error upper_alphabet (N.to_nat v) = Some c.
Inductive hex_denotes : bytes -> bytes -> Prop :=
| hd_nil : hex_denotes [] []
| hd_cons h l a b s d :
    digit_value h a -> digit_value l b -> hex_denotes s d ->
    hex_denotes (h :: l :: s) (16 * a + b :: d).

(** A C string has no NUL before its end. *)
Definition no_nul (s : bytes) : Prop := ~ In 0 s.

(** Trailing line ends. *)
Definition eol (c : N) : Prop := c = 13 \/ c = 10.
Definition chomped (s t : bytes) : Prop :=
  exists e, s = t ++ e /\ Forall eol e /\ (forall t' c, t = t' ++ [c] -> ~ eol c).

(** The bytes [off, off+len) of a file, if it has them. *)
Definition file_has (f : bytes) (off : N) (d : bytes) : Prop :=
  exists a c, f = a ++ d ++ c /\ blen a = off.

(** [f'] is [f] after a write of [d] at [off]: bytes inside the range are [d]'s, all others are
    unchanged, bytes between the old end and [off] are zero. *)
Definition byte_of (f : bytes) (i : nat) : option N := nth_error f i.
Definition written (f : bytes) (off : nat) (d f' : bytes) : Prop :=
  forall i, byte_of f' i =
    if (Nat.leb off i && Nat.ltb i (off + length d))%bool then byte_of d (i - off)
    else match byte_of f i with
         | Some x => Some x
         | None => if (Nat.ltb i off && Nat.ltb 0 (length d))%bool then Some 0 else None
         end.

(** Schedules without failures. *)
Definition error_free (ev : list ioev) : Prop :=
  Forall (fun e => match e with IoN _ | IoIntr => True | IoErr | IoZero => False end) ev.
(** Number of transfers a schedule grants. *)
Fixpoint transfers (ev : list ioev) : nat :=
  match ev with [] => O | IoN _ :: r => S (transfers r) | _ :: r => transfers r end.

(** Kernel crypto schedules without failures: sends succeed (possibly partially), a recv yields
    the whole digest, calls may be interrupted any number of times. *)
Definition kernel_ok (kv : list kev) : Prop :=
  Forall (fun e => match e with KN _ | KIntr => True | KShort _ | KErr => False end) kv.

(** [s] is an end piece of [d]. *)
Definition end_piece (s d : bytes) : Prop := exists p, d = p ++ s.
