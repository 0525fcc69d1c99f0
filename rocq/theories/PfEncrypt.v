(** Proofs for encrypt.c (C35, C36). *)
From Verif Require Import Base Lib SpecBasic SpecCrypto Utils Encrypt PfUtils PfBasic PfIO.
Ltac Zify.zify_post_hook ::= Z.div_mod_to_equations.
Local Open Scope N_scope.

(** ** Rounds *)
Lemma qround_quarterround x y z w s :
  qround x y z w s =
  let '(a, b, c, d) := quarterround (word s x) (word s y) (word s z) (word s w) in
  upd_nth x a (upd_nth y b (upd_nth z c (upd_nth w d s))).
Proof.
  unfold quarterround, qround, add32. change M32 with W.
  assert (R : forall x, rol32 x 16 = rotl x 16 /\ rol32 x 12 = rotl x 12 /\ rol32 x 8 = rotl x 8 /\ rol32 x 7 = rotl x 7)
    by (intros; repeat split; reflexivity).
  assert (R1 := fun x => proj1 (R x)). assert (R2 := fun x => proj1 (proj2 (R x))).
  assert (R3 := fun x => proj1 (proj2 (proj2 (R x)))). assert (R4 := fun x => proj2 (proj2 (proj2 (R x)))). clear R.
  cbv zeta. rewrite !R1, !R2, !R3, !R4. reflexivity.
Qed.

Lemma double_round_spec s : st_to_list (double_round s) = inner_block (st_to_list s).
Proof.
  destruct s as [t0 t1 t2 t3 t4 t5 t6 t7 t8 t9 t10 t11 t12 t13 t14 t15].
  unfold inner_block, double_round, st_to_list.
  rewrite (qround_quarterround 0 4 8 12). cbn [word nth].
  destruct (quarterround t0 t4 t8 t12) as [[[a0 a4] a8] a12]. cbn [upd_nth].
  rewrite (qround_quarterround 1 5 9 13). cbn [word nth].
  destruct (quarterround t1 t5 t9 t13) as [[[a1 a5] a9] a13]. cbn [upd_nth].
  rewrite (qround_quarterround 2 6 10 14). cbn [word nth].
  destruct (quarterround t2 t6 t10 t14) as [[[a2 a6] a10] a14]. cbn [upd_nth].
  rewrite (qround_quarterround 3 7 11 15). cbn [word nth].
  destruct (quarterround t3 t7 t11 t15) as [[[a3 a7] a11] a15]. cbn [upd_nth].
  rewrite (qround_quarterround 0 5 10 15). cbn [word nth].
  destruct (quarterround a0 a5 a10 a15) as [[[b0 b5] b10] b15]. cbn [upd_nth].
  rewrite (qround_quarterround 1 6 11 12). cbn [word nth].
  destruct (quarterround a1 a6 a11 a12) as [[[b1 b6] b11] b12]. cbn [upd_nth].
  rewrite (qround_quarterround 2 7 8 13). cbn [word nth].
  destruct (quarterround a2 a7 a8 a13) as [[[b2 b7] b8] b13]. cbn [upd_nth].
  rewrite (qround_quarterround 3 4 9 14). cbn [word nth].
  destruct (quarterround a3 a4 a9 a14) as [[[b3 b4] b9] b14]. cbn [upd_nth].
  reflexivity.
Qed.

Lemma iter_S {A} (f : A -> A) n x : Nat.iter (S n) f x = f (Nat.iter n f x).
Proof. reflexivity. Qed.
Lemma iter_swap {A} (f : A -> A) n x : Nat.iter n f (f x) = f (Nat.iter n f x).
Proof.
  induction n as [|n IH]; [reflexivity|].
  change (f (Nat.iter n f (f x)) = f (f (Nat.iter n f x))). now rewrite IH.
Qed.

Lemma iter_rounds_spec n : forall s, st_to_list (iter_rounds n s) = Nat.iter n inner_block (st_to_list s).
Proof.
  induction n as [|n IH]; intros s; [reflexivity|].
  cbn [iter_rounds]. rewrite IH, double_round_spec, iter_swap, iter_S. exact eq_refl.
Qed.

Local Opaque inner_block.
Lemma st_of_to l : length l = 16%nat -> st_to_list (st_of_list l) = l.
Proof.
  intros L. do 16 (destruct l as [|? l]; [cbn in L; lia|]). destruct l; [reflexivity|cbn in L; lia].
Qed.

Lemma chacha20_rounds_spec l : length l = 16%nat -> chacha20_rounds l = rounds20 l.
Proof. intros L. unfold chacha20_rounds. rewrite iter_rounds_spec, st_of_to by exact L. exact eq_refl. Qed.

Lemma length_qround x y z w s : length (qround x y z w s) = length s.
Proof. rewrite qround_quarterround. destruct (quarterround _ _ _ _) as [[[a b] c] d]. now rewrite !length_upd_nth. Qed.
Local Transparent inner_block.
Lemma length_rounds20 s : length (rounds20 s) = length s.
Proof.
  unfold rounds20. generalize 10%nat as n. induction n as [|n IH]; [reflexivity|].
  rewrite iter_S. generalize dependent (Nat.iter n inner_block s). intros l IH.
  unfold inner_block. rewrite !length_qround. exact IH.
Qed.

Lemma st_to_list_len s : length (st_to_list s) = 16%nat.
Proof. destruct s; reflexivity. Qed.
Lemma length_chacha20_rounds l : length (chacha20_rounds l) = 16%nat.
Proof. apply st_to_list_len. Qed.

Local Opaque inner_block qround rounds20 chacha20_rounds.
(** ** Words and bytes *)
Lemma unp32le_le32 d : bytes_ok d -> (4 <= length d)%nat -> unp32le d = le32 d 0.
Proof.
  intros H L. rewrite unp32le_value by assumption.
  destruct d as [|d0 [|d1 [|d2 [|d3 d]]]]; cbn in L; try lia.
  unfold le32. cbn [firstn le_value Nat.mul Nat.add nth]. lia.
Qed.

Lemma bytes_ok_skipn n d : bytes_ok d -> bytes_ok (skipn n d).
Proof. intros H. unfold bytes_ok in *. rewrite <- (firstn_skipn n d) in H. apply Forall_app in H. tauto. Qed.
Lemma bytes_ok_firstn n d : bytes_ok d -> bytes_ok (firstn n d).
Proof. intros H. unfold bytes_ok in *. rewrite <- (firstn_skipn n d) in H. apply Forall_app in H. tauto. Qed.

Lemma nth_skipn {A} n (l : list A) i d : nth i (skipn n l) d = nth (n + i) l d.
Proof. rewrite !nth_nth_error, nth_error_skipn. reflexivity. Qed.

Lemma unp32le_buf_spec n : forall d, bytes_ok d -> (4 * n <= length d)%nat -> unp32le_buf d n = le32s d n.
Proof.
  unfold le32s. induction n as [|n IH]; intros d H L; [reflexivity|].
  cbn [unp32le_buf seq map]. rewrite unp32le_le32 by (auto; lia). f_equal.
  rewrite IH by (auto using bytes_ok_skipn; rewrite skipn_length; lia).
  rewrite <- seq_shift, map_map. apply map_ext. intros i. unfold le32. rewrite !nth_skipn.
  replace (4 + (4 * i + 0))%nat with (4 * S i + 0)%nat by lia.
  replace (4 + (4 * i + 1))%nat with (4 * S i + 1)%nat by lia.
  replace (4 + (4 * i + 2))%nat with (4 * S i + 2)%nat by lia.
  replace (4 + (4 * i + 3))%nat with (4 * S i + 3)%nat by lia. reflexivity.
Qed.

Lemma p32le_word_bytes v : p32le v = word_bytes v.
Proof. rewrite p32le_explicit. reflexivity. Qed.
Lemma p32le_buf_spec l : p32le_buf l = flat_map word_bytes l.
Proof. unfold p32le_buf. induction l as [|v l IH]; [reflexivity|]. cbn [flat_map]. now rewrite p32le_word_bytes, IH. Qed.

Lemma length_le32s d n : length (le32s d n) = n.
Proof. unfold le32s. now rewrite map_length, seq_length. Qed.

Lemma sigma_ok : bytes_ok sigma. Proof. repeat constructor. Qed.

Lemma list16_words (s : list N) : length s = 16%nat ->
  firstn 4 s = [word s 0; word s 1; word s 2; word s 3] /\
  firstn 4 (skipn 12 s) = [word s 12; word s 13; word s 14; word s 15].
Proof. intros L. do 16 (destruct s as [|? s]; [cbn in L; lia|]). destruct s; [split; reflexivity|cbn in L; lia]. Qed.

Lemma hchacha20_spec key inp : bytes_ok key -> bytes_ok inp -> length key = 32%nat -> length inp = 16%nat ->
  hchacha20 key inp = hchacha_spec key inp.
Proof.
  intros Hk Hi Lk Li. unfold hchacha20, hchacha_spec.
  change chacha20_constant with sigma.
  rewrite !unp32le_buf_spec by (auto using sigma_ok; cbn [length]; try (vm_compute; lia); lia).
  set (s := le32s sigma 4 ++ le32s key 8 ++ le32s inp 4).
  assert (Ls : length s = 16%nat) by (unfold s; rewrite !app_length, !length_le32s; reflexivity).
  rewrite chacha20_rounds_spec by exact Ls.
  destruct (list16_words (rounds20 s)) as [E1 E2]; [now rewrite length_rounds20|].
  rewrite E1, E2, !p32le_buf_spec, <- flat_map_app. reflexivity.
Qed.

Lemma word_bytes_len v : length (word_bytes v) = 4%nat. Proof. reflexivity. Qed.
Lemma word_bytes_ok v : bytes_ok (word_bytes v).
Proof. repeat constructor; apply N.mod_lt; lia. Qed.
Lemma flat_word_bytes_len l : length (flat_map word_bytes l) = (4 * length l)%nat.
Proof. induction l as [|v l IH]; [reflexivity|]. cbn [flat_map]. rewrite app_length, IH, word_bytes_len. cbn [length]. lia. Qed.
Lemma flat_word_bytes_ok l : bytes_ok (flat_map word_bytes l).
Proof. induction l as [|v l IH]; [constructor|]. cbn [flat_map]. apply Forall_app. split; [apply word_bytes_ok|exact IH]. Qed.

Lemma hchacha_spec_ok key inp : bytes_ok (hchacha_spec key inp) /\ length (hchacha_spec key inp) = 32%nat.
Proof. unfold hchacha_spec. split; [apply flat_word_bytes_ok|apply flat_word_bytes_len]. Qed.

Lemma map_combine_nth (f : N -> N -> N) : forall a b, length a = length b ->
  map (fun p => f (fst p) (snd p)) (combine a b) = map (fun i => f (word a i) (word b i)) (seq 0 (length a)).
Proof.
  induction a as [|x a IH]; intros [|y b] L; cbn in L; try lia; [reflexivity|].
  cbn [combine map length seq fst snd]. f_equal. rewrite IH by lia.
  rewrite <- seq_shift, map_map. reflexivity.
Qed.

Lemma flat_map_map {A B C} (f : B -> list C) (g : A -> B) l : flat_map f (map g l) = flat_map (fun x => f (g x)) l.
Proof. induction l as [|x l IH]; [reflexivity|]. cbn. now rewrite IH. Qed.

(** Number of key stream blocks a 32-bit counter can address. *)
Lemma chacha20_block_spec key n8 n : bytes_ok key -> length key = 32%nat -> bytes_ok n8 -> length n8 = 8%nat ->
  n < 2 ^ 32 ->
  chacha20_block key (repeat 0 8 ++ n8) n = chacha_block_spec key n ([0; 0; 0; 0] ++ n8).
Proof.
  intros Hk Lk Hn Ln L. unfold chacha20_block, chacha_block_spec.
  assert (U : unp64le (repeat 0 8 ++ n8) = 0).
  { rewrite unp64le_value.
    - cbn. reflexivity.
    - apply Forall_app. split; [repeat constructor; lia|exact Hn].
    - rewrite app_length, repeat_length. lia. }
  rewrite U, N.add_0_l. rewrite (N.mod_small n SIZE_MOD) by (unfold SIZE_MOD; change (2 ^ 32) with 4294967296 in L; lia).
  rewrite (N.mod_small n M32) by (unfold M32; change (2 ^ 32) with 4294967296 in L; lia).
  rewrite (N.div_small n M32) by (unfold M32; change (2 ^ 32) with 4294967296 in L; lia).
  change chacha20_constant with sigma.
  replace (skipn 8 (repeat 0 8 ++ n8)) with n8 by reflexivity.
  rewrite !unp32le_buf_spec by (auto using sigma_ok; cbn [length]; try (vm_compute; lia); lia).
  assert (E : [n; 0] ++ le32s n8 2 = [n] ++ le32s ([0;0;0;0] ++ n8) 3).
  { do 8 (destruct n8 as [|? n8]; [cbn in Ln; lia|]). destruct n8; [|cbn in Ln; lia].
    unfold le32s, le32. cbn [seq map Nat.mul Nat.add nth app]. f_equal. }
  rewrite E. set (s := le32s sigma 4 ++ le32s key 8 ++ [n] ++ le32s ([0;0;0;0] ++ n8) 3).
  assert (Ls : length s = 16%nat) by (unfold s; rewrite !app_length, !length_le32s; reflexivity).
  rewrite chacha20_rounds_spec by exact Ls.
  rewrite map_combine_nth by (now rewrite length_rounds20).
  rewrite Ls, p32le_buf_spec, flat_map_map. reflexivity.
Qed.

Lemma length_chacha_block_spec key n nn : length (chacha_block_spec key n nn) = 64%nat.
Proof. unfold chacha_block_spec. rewrite <- flat_map_map with (f := word_bytes), flat_word_bytes_len, map_length, seq_length. reflexivity. Qed.


Lemma length_chacha20_block key iv n : length (chacha20_block key iv n) = 64%nat.
Proof.
  unfold chacha20_block. rewrite p32le_buf_spec, flat_word_bytes_len, map_length, combine_length.
  rewrite length_chacha20_rounds, !app_length.
  assert (G : forall k d, length (unp32le_buf d k) = k) by (induction k; intros; cbn; auto).
  rewrite !G. reflexivity.
Qed.

Local Opaque chacha20_block hchacha20 chacha_block_spec hchacha_spec.
Lemma nth_blocks key iv k : forall n j, (j < 64 * k)%nat ->
  nth j (chacha20_blocks key iv n k) 0 = nth (j mod 64) (chacha20_block key iv (n + N.of_nat (j / 64))) 0.
Proof.
  induction k as [|k IH]; intros n j H; [lia|].
  cbn [chacha20_blocks]. destruct (le_lt_dec 64 j) as [G|G].
  - rewrite app_nth2 by (rewrite length_chacha20_block; lia). rewrite length_chacha20_block.
    rewrite IH by lia.
    replace ((j - 64) mod 64)%nat with (j mod 64)%nat by lia.
    replace (n + 1 + N.of_nat ((j - 64) / 64)) with (n + N.of_nat (j / 64)) by lia. exact eq_refl.
  - rewrite app_nth1 by (rewrite length_chacha20_block; lia).
    rewrite Nat.mod_small, Nat.div_small by lia. replace (n + N.of_nat 0) with n by lia. exact eq_refl.
Qed.
Lemma length_blocks key iv k : forall n, length (chacha20_blocks key iv n k) = (64 * k)%nat.
Proof. induction k as [|k IH]; intros n; [reflexivity|]. cbn [chacha20_blocks]. rewrite app_length, length_chacha20_block, IH. lia. Qed.

Lemma length_keystream key iv pos len : length (keystream key iv pos len) = len.
Proof. unfold keystream. rewrite firstn_length, skipn_length, length_blocks. lia. Qed.

Lemma nth_firstn {A} n (l : list A) i d : (i < n)%nat -> nth i (firstn n l) d = nth i l d.
Proof. intros H. rewrite !nth_nth_error, nth_error_firstn. now replace (i <? n)%nat with true by lia. Qed.

Lemma nth_keystream key iv pos len j : (j < len)%nat ->
  nth j (keystream key iv pos len) 0 =
  nth ((pos + j) mod 64) (chacha20_block key iv (N.of_nat ((pos + j) / 64))) 0.
Proof.
  intros H. unfold keystream. rewrite nth_firstn by exact H. rewrite nth_skipn, nth_blocks by lia.
  replace ((pos mod 64 + j) mod 64)%nat with ((pos + j) mod 64)%nat by lia.
  replace (N.of_nat (pos / 64) + N.of_nat ((pos mod 64 + j) / 64)) with (N.of_nat ((pos + j) / 64)) by lia.
  exact eq_refl.
Qed.

Lemma keystream_ext key iv pos1 len1 pos2 len2 j1 j2 :
  (j1 < len1)%nat -> (j2 < len2)%nat -> (pos1 + j1 = pos2 + j2)%nat ->
  nth j1 (keystream key iv pos1 len1) 0 = nth j2 (keystream key iv pos2 len2) 0.
Proof. intros. rewrite !nth_keystream by assumption. now replace (pos1 + j1)%nat with (pos2 + j2)%nat. Qed.

Lemma length_xor_bytes a b : length a = length b -> length (xor_bytes a b) = length a.
Proof. intros H. unfold xor_bytes. rewrite map_length, combine_length. lia. Qed.
Lemma nth_xor_bytes : forall a b i, length a = length b ->
  nth i (xor_bytes a b) 0 = N.lxor (nth i a 0) (nth i b 0).
Proof.
  unfold xor_bytes. induction a as [|x a IH]; intros [|y b] i L; cbn in L; try lia.
  - destruct i; reflexivity.
  - destruct i; cbn; [reflexivity|]. apply IH. lia.
Qed.
Lemma list_eq_nth (a b : bytes) : length a = length b -> (forall i, (i < length a)%nat -> nth i a 0 = nth i b 0) -> a = b.
Proof. intros L H. apply (nth_ext a b 0 0 L H). Qed.

Lemma nth_map_seq (f : nat -> N) n i : (i < n)%nat -> nth i (map f (seq 0 n)) 0 = f i.
Proof.
  intros H. rewrite (nth_indep (map f (seq 0 n)) 0 (f 0%nat)) by (now rewrite map_length, seq_length).
  rewrite (map_nth f). now rewrite seq_nth.
Qed.

(** A cipher that has consumed [ci_pos] bytes since the restart with this key and nonce. *)
Definition cipher_for (key nonce : bytes) (c : cipher) : Prop :=
  ci_key c = hchacha20 key (firstn 16 nonce) /\ ci_iv c = repeat 0 8 ++ firstn 8 (skipn 16 nonce).

Lemma encrypt_restart_for key nonce : cipher_for key nonce (encrypt_restart key nonce) /\ ci_pos (encrypt_restart key nonce) = 0%nat.
Proof. split; [split|]; exact eq_refl. Qed.

(** Encrypting [data] in one call, as [xchacha] from position [ci_pos c] on. *)
Definition xchacha_from (key nonce : bytes) (pos : nat) (data : bytes) : bytes :=
  map (fun i => N.lxor (nth i data 0) (xchacha_byte key nonce (pos + i))) (seq 0 (length data)).

Lemma encrypt_do_spec key nonce c data :
  bytes_ok key -> length key = 32%nat -> bytes_ok nonce -> (24 <= length nonce)%nat ->
  cipher_for key nonce c -> N.of_nat (ci_pos c + length data) <= 2 ^ 38 ->
  encrypt_do c data = (xchacha_from key nonce (ci_pos c) data,
                       mkCipher (ci_key c) (ci_iv c) (ci_pos c + length data)) /\
  cipher_for key nonce (snd (encrypt_do c data)).
Proof.
  intros Hk Lk Hn Ln Hc L. split.
  2:{ exact Hc. }
  unfold encrypt_do. f_equal. apply list_eq_nth.
  - rewrite length_xor_bytes by (now rewrite length_keystream). unfold xchacha_from. now rewrite map_length, seq_length.
  - intros i Hi. rewrite length_xor_bytes in Hi by (now rewrite length_keystream).
    rewrite nth_xor_bytes by (now rewrite length_keystream).
    rewrite nth_keystream by exact Hi.
    unfold xchacha_from.
    rewrite (nth_map_seq (fun i => N.lxor (nth i data 0) (xchacha_byte key nonce (ci_pos c + i)))) by exact Hi.
    apply f_equal2; [exact eq_refl|].
    unfold xchacha_byte. destruct Hc as [Hc1 Hc2]. rewrite Hc1, Hc2.
    rewrite hchacha20_spec; [|assumption|now apply bytes_ok_firstn|assumption|rewrite firstn_length; lia].
    destruct (hchacha_spec_ok key (firstn 16 nonce)).
    rewrite chacha20_block_spec; auto.
    + apply bytes_ok_firstn, bytes_ok_skipn, Hn.
    + rewrite firstn_length, skipn_length. lia.
    + change (2 ^ 38) with 274877906944 in L. change (2 ^ 32) with 4294967296. lia.
Qed.

Lemma xchacha_from_0 key nonce data : xchacha_from key nonce 0 data = xchacha key nonce data.
Proof. reflexivity. Qed.

Lemma length_xchacha_from key nonce pos data : length (xchacha_from key nonce pos data) = length data.
Proof. unfold xchacha_from. now rewrite map_length, seq_length. Qed.

Lemma xchacha_from_app key nonce pos a b :
  xchacha_from key nonce pos (a ++ b) = xchacha_from key nonce pos a ++ xchacha_from key nonce (pos + length a) b.
Proof.
  unfold xchacha_from. rewrite app_length, seq_app, map_app. f_equal.
  - apply map_ext_in. intros i Hi. apply in_seq in Hi. rewrite app_nth1 by lia. reflexivity.
  - cbn [Nat.add]. rewrite <- (Nat.add_0_r (length a)) at 1.
    assert (G : forall (f : nat -> N) n k, map f (seq (n + 0) k) = map (fun i => f (n + i)%nat) (seq 0 k)).
    { intros f n k. rewrite Nat.add_0_r. revert n. induction k as [|k IH]; intros n; [reflexivity|].
      cbn. rewrite Nat.add_0_r. f_equal. rewrite IH. rewrite <- seq_shift, map_map. apply map_ext. intros i. f_equal. lia. }
    rewrite G. apply map_ext. intros i. rewrite app_nth2 by lia. f_equal; [f_equal; lia|]. f_equal. lia.
Qed.

Lemma xchacha_from_invol key nonce pos data : xchacha_from key nonce pos (xchacha_from key nonce pos data) = data.
Proof.
  apply list_eq_nth; [now rewrite !length_xchacha_from|].
  intros i Hi. rewrite !length_xchacha_from in Hi.
  assert (G : forall d, (i < length d)%nat -> nth i (xchacha_from key nonce pos d) 0 = N.lxor (nth i d 0) (xchacha_byte key nonce (pos + i))).
  { intros d Hd. unfold xchacha_from.
    rewrite (nth_map_seq (fun i => N.lxor (nth i d 0) (xchacha_byte key nonce (pos + i)))) by exact Hd. exact eq_refl. }
  rewrite G by (now rewrite length_xchacha_from). rewrite G by exact Hi.
  rewrite N.lxor_assoc, N.lxor_nilpotent, N.lxor_0_r. reflexivity.
Qed.

(** A sequence of calls *)
Fixpoint encrypt_calls (c : cipher) (pieces : list bytes) : list bytes * cipher :=
  match pieces with
  | [] => ([], c)
  | d :: r => let '(o, c1) := encrypt_do c d in let '(os, c2) := encrypt_calls c1 r in (o :: os, c2)
  end.

Lemma encrypt_calls_spec key nonce : bytes_ok key -> length key = 32%nat -> bytes_ok nonce -> (24 <= length nonce)%nat ->
  forall pieces c, cipher_for key nonce c -> N.of_nat (ci_pos c + length (concat pieces)) <= 2 ^ 38 ->
  concat (fst (encrypt_calls c pieces)) = xchacha_from key nonce (ci_pos c) (concat pieces) /\
  map (@length N) (fst (encrypt_calls c pieces)) = map (@length N) pieces.
Proof.
  intros Hk Lk Hn Ln. induction pieces as [|d r IH]; intros c Hc L; [split; reflexivity|].
  cbn [encrypt_calls concat] in *. rewrite app_length in L.
  destruct (encrypt_do_spec key nonce c d) as [E1 E2]; auto; [lia|].
  destruct (encrypt_do c d) as [o c1]. injection E1 as -> ->. cbn [snd] in E2.
  destruct (encrypt_calls _ r) as [os c2] eqn:EC. cbn [fst concat map].
  specialize (IH _ E2). cbn [ci_pos] in IH. rewrite EC in IH. cbn [fst] in IH.
  destruct IH as [I1 I2]; [lia|]. rewrite I1, I2, xchacha_from_app, length_xchacha_from. split; reflexivity.
Qed.

(** Without any bound on the position or on the key: splitting and self-inverse hold for the
    model's own key stream. *)
Lemma encrypt_do_app c a b :
  fst (encrypt_do c (a ++ b)) = fst (encrypt_do c a) ++ fst (encrypt_do (snd (encrypt_do c a)) b) /\
  snd (encrypt_do c (a ++ b)) = snd (encrypt_do (snd (encrypt_do c a)) b).
Proof.
  unfold encrypt_do. cbn [fst snd ci_key ci_iv ci_pos]. split; [|rewrite app_length; f_equal; lia].
  apply list_eq_nth.
  - rewrite (app_length (xor_bytes a _)), !length_xor_bytes by (now rewrite length_keystream). apply app_length.
  - intros i Hi. rewrite length_xor_bytes in Hi by (now rewrite length_keystream). rewrite app_length in Hi.
    rewrite nth_xor_bytes by (now rewrite length_keystream).
    destruct (le_lt_dec (length a) i) as [G|G].
    + rewrite !app_nth2; rewrite ?length_xor_bytes by (now rewrite length_keystream); try lia.
      rewrite nth_xor_bytes by (now rewrite length_keystream). f_equal.
      apply keystream_ext; rewrite ?app_length; lia.
    + rewrite !app_nth1; rewrite ?length_xor_bytes by (now rewrite length_keystream); try lia.
      rewrite nth_xor_bytes by (now rewrite length_keystream). f_equal.
      apply keystream_ext; rewrite ?app_length; lia.
Qed.

Lemma encrypt_do_invol c data : fst (encrypt_do c (fst (encrypt_do c data))) = data.
Proof.
  unfold encrypt_do. cbn [fst]. apply list_eq_nth.
  - rewrite !length_xor_bytes; rewrite ?length_keystream, ?length_xor_bytes; rewrite ?length_keystream; auto.
  - intros i Hi. rewrite !nth_xor_bytes; rewrite ?length_keystream, ?length_xor_bytes; rewrite ?length_keystream; auto.
    rewrite N.lxor_assoc, N.lxor_nilpotent, N.lxor_0_r. reflexivity.
Qed.
Lemma length_encrypt_do c data : length (fst (encrypt_do c data)) = length data.
Proof. unfold encrypt_do. cbn [fst]. apply length_xor_bytes. now rewrite length_keystream. Qed.
