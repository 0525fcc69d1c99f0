(** Specification of XChaCha20 (draft-irtf-cfrg-xchacha-03 on top of RFC 8439), by positions in
    the 16-word state and by byte positions of the key stream. *)
From Verif Require Import Base.
Local Open Scope N_scope.

Definition W : N := 2 ^ 32.
Definition rotl (x n : N) : N := N.lor (N.shiftl x n mod W) (N.shiftr x (32 - n)).
Definition word (s : list N) (i : nat) : N := nth i s 0.

(** RFC 8439 2.1/2.2: the quarter round on state positions x, y, z, w *)
Definition qround (x y z w : nat) (s : list N) : list N :=
  let a := word s x in let b := word s y in let c := word s z in let d := word s w in
  let a1 := (a + b) mod W in let d1 := rotl (N.lxor d a1) 16 in
  let c1 := (c + d1) mod W in let b1 := rotl (N.lxor b c1) 12 in
  let a2 := (a1 + b1) mod W in let d2 := rotl (N.lxor d1 a2) 8 in
  let c2 := (c1 + d2) mod W in let b2 := rotl (N.lxor b1 c2) 7 in
  upd_nth x a2 (upd_nth y b2 (upd_nth z c2 (upd_nth w d2 s))).

(** RFC 8439 2.3: inner_block and twenty rounds *)
Definition inner_block (s : list N) : list N :=
  qround 3 4 9 14 (qround 2 7 8 13 (qround 1 6 11 12 (qround 0 5 10 15
  (qround 3 7 11 15 (qround 2 6 10 14 (qround 1 5 9 13 (qround 0 4 8 12 s))))))).
Definition rounds20 (s : list N) : list N := Nat.iter 10 inner_block s.

(** Little-endian words and bytes *)
Definition le32 (d : bytes) (i : nat) : N :=
  let b k := nth (4 * i + k) d 0 in
  b 0%nat + 2 ^ 8 * b 1%nat + 2 ^ 16 * b 2%nat + 2 ^ 24 * b 3%nat.
Definition le32s (d : bytes) (n : nat) : list N := map (le32 d) (seq 0 n).
Definition word_bytes (v : N) : bytes :=
  [v mod 256; v / 2 ^ 8 mod 256; v / 2 ^ 16 mod 256; v / 2 ^ 24 mod 256].

Definition sigma : bytes := bs "expand 32-byte k".

(** HChaCha20 (draft 2.2): words 0-3 and 12-15 after the rounds *)
Definition hchacha_spec (key nonce16 : bytes) : bytes :=
  let s := rounds20 (le32s sigma 4 ++ le32s key 8 ++ le32s nonce16 4) in
  flat_map word_bytes [word s 0; word s 1; word s 2; word s 3; word s 12; word s 13; word s 14; word s 15].

(** ChaCha20 block with a 32-bit counter and a 96-bit nonce (RFC 8439 2.3) *)
Definition chacha_block_spec (key : bytes) (ctr : N) (nonce12 : bytes) : bytes :=
  let s := le32s sigma 4 ++ le32s key 8 ++ [ctr] ++ le32s nonce12 3 in
  flat_map (fun i => word_bytes ((word s i + word (rounds20 s) i) mod W)) (seq 0 16).

(** XChaCha20 (draft 2.3): byte [i] of the key stream *)
Definition xchacha_byte (key nonce : bytes) (i : nat) : N :=
  nth (i mod 64)
    (chacha_block_spec (hchacha_spec key (firstn 16 nonce)) (N.of_nat (i / 64))
       ([0; 0; 0; 0] ++ firstn 8 (skipn 16 nonce))) 0.

Definition xchacha (key nonce data : bytes) : bytes :=
  map (fun i => N.lxor (nth i data 0) (xchacha_byte key nonce i)) (seq 0 (length data)).
