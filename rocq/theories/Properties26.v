(** Property C92: what encrypted chunks show.  Statements only. *)
From Verif Require Import Base Lib SpecBasic SpecCrypto SpecTool SpecHttp SpecLeak Utils Tool PfLeak Ex8 Ex27.
Local Open Scope N_scope.

(** Two files that were encrypted with one key under ids with the same first 24 bytes (two compressed versions of one chunk) show
    their difference: where they are the same and where they are not. *)
Theorem C92_difference key id1 id2 d1 d2 c1 c2 : tool_made key id1 d1 c1 -> tool_made key id2 d2 c2 -> firstn 24 id1 = firstn 24 id2 -> blen d1 < 2 ^ 32 -> blen d2 < 2 ^ 32 ->
  forall i, (i < length d1)%nat -> (i < length d2)%nat ->
    N.lxor (nth i c1 0) (nth i c2 0) = N.lxor (nth i d1 0) (nth i d2 0) /\ (nth i c1 0 = nth i c2 0 <-> nth i d1 0 = nth i d2 0).
Proof. exact (leak_difference key id1 id2 d1 d2 c1 c2). Qed.
Print Assumptions C92_difference.
(** Who has one of them in the clear can read the other one, as far as the first reaches. *)
Theorem C92_known key id1 id2 d1 d2 c1 c2 : tool_made key id1 d1 c1 -> tool_made key id2 d2 c2 -> firstn 24 id1 = firstn 24 id2 -> blen d1 < 2 ^ 32 -> blen d2 < 2 ^ 32 ->
  forall n, (n <= length d1)%nat -> (n <= length d2)%nat -> firstn n d2 = xored (xored (firstn n c2) c1) d1.
Proof. exact (leak_known key id1 id2 d1 d2 c1 c2). Qed.
Print Assumptions C92_known.
Theorem C92_refuted : exists key id d1 d2 c1 c2, tool_made key id d1 c1 /\ tool_made key id d2 c2 /\ d1 <> d2 /\ length d2 = length d1 /\ xored c1 c2 = xored d1 d2.
Proof. exact two_times. Qed.
Print Assumptions C92_refuted.
(** The sizes of the compressed chunks are visible. *)
Theorem C92_sizes key id data c : tool_made key id data c -> length c = length data.
Proof. exact (leak_sizes key id data c). Qed.
Print Assumptions C92_sizes.
(** Who changes an encrypted chunk on its way changes the compressed one at the same places, without knowing the key (what csn
    makes of it is C28 and C30). *)
Theorem C92_malleable key id body delta : length delta = length body -> on_the_wire (Some key) id (xored body delta) = xored (on_the_wire (Some key) id body) delta.
Proof. exact (malleable key id body delta). Qed.
Print Assumptions C92_malleable.

Example C92_meets : tool_made (repeat 0 32) id_a text secret /\ tool_made (repeat 0 32) id_a again (crypted (repeat 0 32) id_a again).
Proof. exact (conj made_1 made_2). Qed.
