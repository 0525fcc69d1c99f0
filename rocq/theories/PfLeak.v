(** What encrypted chunks show (C92). *)
From Verif Require Import Base Lib SpecBasic SpecCrypto SpecTool SpecHttp SpecLeak Utils Encrypt Tool PfEncrypt PfTool.
Local Open Scope N_scope.

Lemma made_crypted key id data c : tool_made key id data c -> is_crypted key id data c.
Proof.
  intros (argv & w & w' & spec & input & out & N1 & S1 & A1 & K1 & HP & HO & Hd & He & R1 & Hc).
  destruct (other_chunk _ _ _ HP HO) as (_ & Hdash). assert (Ni := crypt_args_no_nul _ _ _ _ N1 A1).
  destruct (tool_crypts _ _ _ _ _ _ N1 S1 A1 R1) as (k1 & id1 & o1 & B1 & B2 & B3 & B4). rewrite (tool_key_unique _ _ _ _ B1 K1) in *.
  assert (X1 : chunk_id_from_path input = Some id) by (apply chunk_names; auto). assert (X2 : chunk_id_from_path input = Some id1) by (apply chunk_names; auto).
  assert (id1 = id) as -> by congruence. cbn [output_name] in B3. rewrite (other_unique _ _ _ B3 HO) in B4. destruct (B4 He) as (dat & d & C1 & C2 & _ & C3 & _).
  assert (dat = data) as -> by congruence. rewrite (C3 Hdash) in Hc. injection Hc as <-. exact C2.
Qed.
Lemma nth_xchacha key nonce d i : (i < length d)%nat -> nth i (xchacha key nonce d) 0 = N.lxor (nth i d 0) (xchacha_byte key nonce i).
Proof. intros H. unfold xchacha. now rewrite (nth_map_seq (fun i => N.lxor (nth i d 0) (xchacha_byte key nonce i))). Qed.
Lemma leak_sizes key id data c : tool_made key id data c -> length c = length data.
Proof. intros H. apply (made_crypted _ _ _ _ H). Qed.
Lemma leak_difference key id1 id2 d1 d2 c1 c2 : tool_made key id1 d1 c1 -> tool_made key id2 d2 c2 -> firstn 24 id1 = firstn 24 id2 -> blen d1 < 2 ^ 32 -> blen d2 < 2 ^ 32 ->
  forall i, (i < length d1)%nat -> (i < length d2)%nat ->
    N.lxor (nth i c1 0) (nth i c2 0) = N.lxor (nth i d1 0) (nth i d2 0) /\ (nth i c1 0 = nth i c2 0 <-> nth i d1 0 = nth i d2 0).
Proof.
  intros M1 M2 Hid L1 L2 i Hi1 Hi2. apply made_crypted in M1 as (_ & M1). apply made_crypted in M2 as (_ & M2). rewrite (M1 L1), (M2 L2). unfold crypted. rewrite Hid, !nth_xchacha by assumption.
  set (k := xchacha_byte key (firstn 24 id2) i). assert (X : N.lxor (N.lxor (nth i d1 0) k) (N.lxor (nth i d2 0) k) = N.lxor (nth i d1 0) (nth i d2 0)).
  { rewrite N.lxor_assoc, (N.lxor_comm k), N.lxor_assoc, N.lxor_nilpotent, N.lxor_0_r. reflexivity. }
  split; [exact X|]. split; intros Y.
  - rewrite Y, N.lxor_nilpotent in X. symmetry in X. now apply N.lxor_eq in X.
  - now rewrite Y.
Qed.
Lemma leak_known key id1 id2 d1 d2 c1 c2 : tool_made key id1 d1 c1 -> tool_made key id2 d2 c2 -> firstn 24 id1 = firstn 24 id2 -> blen d1 < 2 ^ 32 -> blen d2 < 2 ^ 32 ->
  forall n, (n <= length d1)%nat -> (n <= length d2)%nat -> firstn n d2 = xored (xored (firstn n c2) c1) d1.
Proof.
  intros M1 M2 Hid L1 L2 n Hn1 Hn2. pose proof (leak_sizes _ _ _ _ M1) as S1. pose proof (leak_sizes _ _ _ _ M2) as S2.
  assert (LX : forall a b, length (xored a b) = length a) by (intros a b; unfold xored; now rewrite map_length, seq_length).
  apply list_eq_nth; [rewrite !LX, !firstn_length; lia|]. intros i Hi. rewrite firstn_length in Hi.
  rewrite nth_firstn by lia. unfold xored at 1. rewrite (nth_map_seq (fun i => N.lxor (nth i (xored (firstn n c2) c1) 0) (nth i d1 0))) by (rewrite LX, firstn_length; lia).
  unfold xored. rewrite (nth_map_seq (fun i => N.lxor (nth i (firstn n c2) 0) (nth i c1 0))) by (rewrite firstn_length; lia). rewrite nth_firstn by lia.
  destruct (leak_difference _ _ _ _ _ _ _ M1 M2 Hid L1 L2 i ltac:(lia) ltac:(lia)) as (Y & _). rewrite (N.lxor_comm (nth i c2 0)), Y, N.lxor_assoc, (N.lxor_comm (nth i d2 0)), <- N.lxor_assoc, N.lxor_nilpotent, N.lxor_0_l. reflexivity.
Qed.
Lemma malleable key id body delta : length delta = length body -> on_the_wire (Some key) id (xored body delta) = xored (on_the_wire (Some key) id body) delta.
Proof.
  intros L. cbn [on_the_wire]. assert (LX : forall a b, length (xored a b) = length a) by (intros a b; unfold xored; now rewrite map_length, seq_length).
  assert (LC : forall d, length (xchacha key (firstn 24 id) d) = length d) by (intros d; unfold xchacha; now rewrite map_length, seq_length).
  apply list_eq_nth; [now rewrite LX, !LC, LX|]. intros i Hi. rewrite LC, LX in Hi. rewrite nth_xchacha by (now rewrite LX). unfold xored.
  rewrite (nth_map_seq (fun i => N.lxor (nth i body 0) (nth i delta 0))) by exact Hi. rewrite (nth_map_seq (fun i => N.lxor (nth i (xchacha key (firstn 24 id) body) 0) (nth i delta 0))) by (now rewrite LC).
  rewrite nth_xchacha by exact Hi. rewrite !N.lxor_assoc. f_equal. apply N.lxor_comm.
Qed.
