(** The chunks that the project's end-to-end tests are made of (test/e2e/csn_test.py:17-56), for C91. *)
From Verif Require Import Base Chunker SpecChunker SpecCaibx.
Local Open Scope N_scope.

(** casync's default chunk sizes. *)
Definition p_default : params := mkParams 16384 65536 262144.
Definition d_default : N := 49535.
Definition break_pattern : bytes := repeat 0 46 ++ [5; 139].
(** csn_test.py:26-56 [Chunk.make] *)
Definition make (size : N) (b : N) : bytes :=
  if size =? 262144 then b :: repeat 0 (N.to_nat size - 1) else b :: repeat 0 (N.to_nat size - 49) ++ break_pattern.
Definition made (c : bytes) : Prop := exists size b, 16384 <= size <= 262144 /\ b < 256 /\ c = make size b.
(** csn_test.py:152-193 [make_caibx]: the words of the index in order; numbers are written as eight bytes. *)
Fixpoint caibx_table (E : env) (offset : N) (l : list bytes) : list (N + bytes) :=
  match l with [] => [] | c :: r => inl (offset + blen c) :: inr (e_H E c) :: caibx_table E (offset + blen c) r end.
Definition caibx_words (E : env) (l : list bytes) : list (N + bytes) :=
  [inl 0x30; inl 0x96824d9c7b129ff9; inl 0x9000000000000000; inl (16 * 1024); inl (64 * 1024); inl (256 * 1024); inl 0xffffffffffffffff; inl 0xe75b9e112f17417d] ++
  caibx_table E 0 l ++ [inl 0; inl 0; inl 0x30; inl (16 + (N.of_nat (length l) + 1) * 40); inl 0x4b4f050e5549ecd1].
Definition make_caibx (E : env) (l : list bytes) : bytes := concat (map (fun x => match x with inl v => le64 v | inr d => d end) (caibx_words E l)).
