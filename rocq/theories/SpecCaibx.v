(** Specification of the caibx file format, independent of the code that reads it. *)
From Verif Require Import Base SpecBasic Chunker.
Local Open Scope N_scope.

(** The 64-bit little-endian field at byte [i]. *)
Definition field (f : bytes) (i : nat) : N := le_value (slice i 8 f).

(** A structurally valid index file with parameters [p] and [n] entries: header (48 bytes), table
    header (16), entries (40 each), footer (40).  Only three feature flags are known. *)
Definition known_flags (x : N) : Prop :=
  exists a b c : bool, x = (if a then 0x8000000000000000 else 0) + (if b then 0x4000000000000000 else 0)
                           + (if c then 0x1000000000000000 else 0).
Definition valid_index (f : bytes) (p : params) (n : N) : Prop :=
  let t := (64 + 40 * N.to_nat n)%nat in
  blen f = 104 + 40 * n /\
  48 <= field f 0 /\ field f 8 = 0x96824d9c7b129ff9 /\ known_flags (field f 16) /\
  field f 24 = p_min p /\ field f 32 = p_avg p /\ field f 40 = p_max p /\
  p_min p < p_avg p < p_max p /\ p_max p < 2 ^ 32 /\
  field f 56 = 0xe75b9e112f17417d /\
  field f t = 0 /\ field f (t + 8) = 0 /\ field f (t + 16) = 48 /\ field f (t + 24) = 56 + 40 * n /\
  field f (t + 32) = 0x4b4f050e5549ecd1.

(** End offset and id of entry [i]. *)
Definition ent_end (f : bytes) (i : nat) : N := field f (64 + 40 * i).
Definition ent_id (f : bytes) (i : nat) : bytes := slice (72 + 40 * i) 32 f.

(** Writing an index. *)
Definition le64 (v : N) : bytes := map (fun k => (v / 256 ^ N.of_nat k) mod 256) (seq 0 8).
Definition index_file (flags : N) (p : params) (l : list (N * bytes)) : bytes :=
  le64 48 ++ le64 0x96824d9c7b129ff9 ++ le64 flags ++ le64 (p_min p) ++ le64 (p_avg p) ++ le64 (p_max p) ++
  le64 0xffffffffffffffff ++ le64 0xe75b9e112f17417d ++
  concat (map (fun e => le64 (fst e) ++ snd e) l) ++
  le64 0 ++ le64 0 ++ le64 48 ++ le64 (56 + 40 * N.of_nat (length l)) ++ le64 0x4b4f050e5549ecd1.

(** What iterating over consecutive entries delivers: start, length, id. *)
Fixpoint spans (start : N) (l : list (N * bytes)) : list (N * N * bytes) :=
  match l with
  | [] => []
  | (e, id) :: r => (start, e - start, id) :: spans e r
  end.
(** End offsets that do not decrease and chunks below 4 GiB. *)
Fixpoint ascending (start : N) (l : list (N * bytes)) : Prop :=
  match l with
  | [] => True
  | (e, id) :: r => start <= e /\ e - start < 2 ^ 32 /\ e < 2 ^ 64 /\ ascending e r
  end.
Definition good_id (id : bytes) : Prop := length id = 32%nat /\ bytes_ok id.
Definition good_params (p : params) : Prop := p_min p < p_avg p < p_max p /\ p_max p < 2 ^ 32.

(** A callback that records what it is called with, and a program that reads a whole index. *)
Definition record_entry (off len : N) (id : bytes) (acc : list (N * N * bytes)) : M (bool * list (N * N * bytes)) :=
  ret (true, acc ++ [(off, len, id)]).
