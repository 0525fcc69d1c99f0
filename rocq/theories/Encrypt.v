(** Model of /repo/encrypt.c. *)
From Verif Require Import Base Utils.
Local Open Scope N_scope.

(** 32-bit addition *)
Definition add32 (a b : N) : N := (a + b) mod M32.

(** encrypt.c:38-42 [QUARTERROUND] *)
Definition quarterround (a b c d : N) : N * N * N * N :=
  let a := add32 a b in let d := rol32 (N.lxor d a) 16 in
  let c := add32 c d in let b := rol32 (N.lxor b c) 12 in
  let a := add32 a b in let d := rol32 (N.lxor d a) 8 in
  let c := add32 c d in let b := rol32 (N.lxor b c) 7 in
  (a, b, c, d).

(** The sixteen local variables t0..t15 of encrypt.c:47-50. *)
Record st16 : Type := mkSt {
  t0 : N; t1 : N; t2 : N; t3 : N; t4 : N; t5 : N; t6 : N; t7 : N;
  t8 : N; t9 : N; t10 : N; t11 : N; t12 : N; t13 : N; t14 : N; t15 : N }.

(** encrypt.c:53-60: one iteration of the loop *)
Definition double_round (s : st16) : st16 :=
  let '(mkSt t0 t1 t2 t3 t4 t5 t6 t7 t8 t9 t10 t11 t12 t13 t14 t15) := s in
  let '(t0, t4, t8, t12) := quarterround t0 t4 t8 t12 in
  let '(t1, t5, t9, t13) := quarterround t1 t5 t9 t13 in
  let '(t2, t6, t10, t14) := quarterround t2 t6 t10 t14 in
  let '(t3, t7, t11, t15) := quarterround t3 t7 t11 t15 in
  let '(t0, t5, t10, t15) := quarterround t0 t5 t10 t15 in
  let '(t1, t6, t11, t12) := quarterround t1 t6 t11 t12 in
  let '(t2, t7, t8, t13) := quarterround t2 t7 t8 t13 in
  let '(t3, t4, t9, t14) := quarterround t3 t4 t9 t14 in
  mkSt t0 t1 t2 t3 t4 t5 t6 t7 t8 t9 t10 t11 t12 t13 t14 t15.

Fixpoint iter_rounds (n : nat) (s : st16) : st16 :=
  match n with O => s | S n' => iter_rounds n' (double_round s) end.

Definition st_of_list (l : list N) : st16 :=
  let g i := nth i l 0 in
  mkSt (g 0%nat) (g 1%nat) (g 2%nat) (g 3%nat) (g 4%nat) (g 5%nat) (g 6%nat) (g 7%nat)
       (g 8%nat) (g 9%nat) (g 10%nat) (g 11%nat) (g 12%nat) (g 13%nat) (g 14%nat) (g 15%nat).
Definition st_to_list (s : st16) : list N :=
  let '(mkSt t0 t1 t2 t3 t4 t5 t6 t7 t8 t9 t10 t11 t12 t13 t14 t15) := s in
  [t0; t1; t2; t3; t4; t5; t6; t7; t8; t9; t10; t11; t12; t13; t14; t15].

(** encrypt.c:44-66 [chacha20_rounds] *)
Definition chacha20_rounds (l : list N) : list N := st_to_list (iter_rounds 10 (st_of_list l)).

(** encrypt.c:18-22 [unp32le_buf] *)
Fixpoint unp32le_buf (src : bytes) (size : nat) : list N :=
  match size with
  | O => []
  | S n => unp32le src :: unp32le_buf (skipn 4 src) n
  end.
(** encrypt.c:24-28 [p32le_buf] *)
Definition p32le_buf (src : list N) : bytes := flat_map p32le src.

Definition chacha20_constant : bytes := bs "expand 32-byte k".

(** encrypt.c:68-83 [hchacha20] *)
Definition hchacha20 (key inp : bytes) : bytes :=
  let block := unp32le_buf chacha20_constant 4 ++ unp32le_buf key 8 ++ unp32le_buf inp 4 in
  let block := chacha20_rounds block in
  p32le_buf (firstn 4 block) ++ p32le_buf (firstn 4 (skipn 12 block)).

(** ** OpenSSL's EVP_chacha20 (library contract)

    The 16-byte IV holds a 64-bit little-endian block counter and a 64-bit
    nonce; block number n of the key stream is the ChaCha20 block function with
    the counter plus n.  EVP_Cipher XORs consecutive key stream bytes. *)
Definition chacha20_block (key iv : bytes) (n : N) : bytes :=
  let ctr := (unp64le iv + n) mod SIZE_MOD in
  let s := unp32le_buf chacha20_constant 4 ++ unp32le_buf key 8 ++
           [ctr mod M32; ctr / M32] ++ unp32le_buf (skipn 8 iv) 2 in
  p32le_buf (map (fun p => add32 (fst p) (snd p)) (combine s (chacha20_rounds s))).

Fixpoint chacha20_blocks (key iv : bytes) (n : N) (k : nat) : bytes :=
  match k with
  | O => []
  | S k' => chacha20_block key iv n ++ chacha20_blocks key iv (n + 1) k'
  end.

(** [len] key stream bytes from position [pos] on. *)
Definition keystream (key iv : bytes) (pos : nat) (len : nat) : bytes :=
  firstn len (skipn (Nat.modulo pos 64)
    (chacha20_blocks key iv (N.of_nat (Nat.div pos 64)) (S (Nat.div (Nat.modulo pos 64 + len) 64)))).

Definition xor_bytes (a b : bytes) : bytes := map (fun p => N.lxor (fst p) (snd p)) (combine a b).

(** Cipher context after encrypt_restart: sub-key, IV, position in the key stream. *)
Record cipher : Type := mkCipher { ci_key : bytes; ci_iv : bytes; ci_pos : nat }.

(** encrypt.c:100-128 [encrypt_restart]; the nonce is the first 24 bytes.  The
    failure of the EVP calls is handled by the callers' allocation oracle. *)
Definition encrypt_restart (key nonce : bytes) : cipher :=
  mkCipher (hchacha20 key (firstn 16 nonce))
           (repeat 0 8 ++ firstn 8 (skipn 16 nonce)) 0.

(** encrypt.c:137-143 [encrypt_do] *)
Definition encrypt_do (c : cipher) (data : bytes) : bytes * cipher :=
  (xor_bytes data (keystream (ci_key c) (ci_iv c) (ci_pos c) (length data)),
   mkCipher (ci_key c) (ci_iv c) (ci_pos c + length data)).

(** ** encrypt.c:145-195 [encrypt_parse_keyspec] *)
Inductive keysrc : Type := KeyLit (s : bytes) | KeyEnv (v : bytes) | KeyFile (p : bytes) | KeyBad.
(** encrypt.c:152-172: the dispatch *)
Definition keyspec_src (spec : bytes) : keysrc :=
  if startswith spec (bs "key:") then KeyLit (skipn 4 spec)
  else if startswith spec (bs "env:") then KeyEnv (skipn 4 spec)
  else if startswith spec (bs "file:") then KeyFile (skipn 5 spec)
  else KeyBad.
(** encrypt.c:174-186: length check and decoding; [key_out] is the output buffer, line 182
    wipes it.  The result is the return value (true: 0) and the buffer. *)
Definition decode_key_buf (key_out key_str : bytes) : bool * bytes :=
  if negb (Nat.eqb (length key_str) 64) then (false, key_out) else
  let out := overlay (parse_hex_written key_str None) key_out in
  match parse_hex key_str with
  | Some _ => (true, out)
  | None => (false, overlay (repeat 0 32) out)
  end.
(** A key buffer before anything was stored in it. *)
Definition key_buf_new : bytes := repeat 0 32.
Definition key_result (r : bool * bytes) : option bytes := if fst r then Some (snd r) else None.
Definition decode_key (key_str : bytes) : option bytes := key_result (decode_key_buf key_buf_new key_str).

Definition encrypt_parse_keyspec_buf (E : env) (key_out spec : bytes) : M (bool * bytes) :=
  match keyspec_src spec with
  | KeyLit s => ret (decode_key_buf key_out s)
  | KeyEnv v => match e_getenv E v with
                | None => ret (false, key_out)
                | Some s => ret (decode_key_buf key_out s)
                end
  | KeyFile p =>
      s <- slurp_file E p ;;
      match s with
      | None => ret (false, key_out)
      | Some text => ret (decode_key_buf key_out (chomp (cstr text)))
      end
  | KeyBad => ret (false, key_out)
  end.
(** As the callers use it: the key on success. *)
Definition encrypt_parse_keyspec (E : env) (spec : bytes) : M (option bytes) :=
  r <- encrypt_parse_keyspec_buf E key_buf_new spec ;; ret (key_result r).
