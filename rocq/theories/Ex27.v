(** A chunk that was compressed twice and encrypted twice, for C92. *)
From Verif Require Import Base Lib SpecBasic SpecCrypto SpecTool SpecLeak Utils Encrypt Tool PfTool PfLeak Toy Ex8.
Local Open Scope N_scope.

Definition again : bytes := bs "hallo".
Definition w_again : tworld := tool_world (one_file plain_p again) io8 [].
Lemma made_1 : tool_made (repeat 0 32) id_a text secret.
Proof.
  exists crypt_p, w_a, (snd (tool_main crypt_p w_a)), k0, plain_p, enc_p. pose proof ex_there as R. cbv zeta in R. destruct (tool_main crypt_p w_a) as [o w'] eqn:E. cbn [fst snd] in *. injection R as -> R1 R2.
  split; [apply ex_argv|]. split; [apply ex_strings|]. split; [apply ex_args|]. split; [apply key_0|]. split; [apply plain_chunk|]. split; [apply ex_other|]. split; [reflexivity|]. split; [reflexivity|]. split; [reflexivity|exact R2].
Qed.
Lemma run_again : let r := tool_main crypt_p w_again in (fst r, tw_fs (snd r) enc_p) = (Ok 0, Some (crypted (repeat 0 32) id_a again)).
Proof. vm_compute. reflexivity. Qed.
Lemma made_2 : tool_made (repeat 0 32) id_a again (crypted (repeat 0 32) id_a again).
Proof.
  exists crypt_p, w_again, (snd (tool_main crypt_p w_again)), k0, plain_p, enc_p. pose proof run_again as R. cbv zeta in R. destruct (tool_main crypt_p w_again) as [o w'] eqn:E. cbn [fst snd] in *. injection R as -> R2.
  split; [apply ex_argv|]. split; [apply ex_strings|]. split; [apply ex_args|]. split; [apply key_0|]. split; [apply plain_chunk|]. split; [apply ex_other|]. split; [reflexivity|]. split; [reflexivity|]. split; [reflexivity|exact R2].
Qed.
(** The key stream is the same. *)
Lemma two_times : exists key id d1 d2 c1 c2, tool_made key id d1 c1 /\ tool_made key id d2 c2 /\ d1 <> d2 /\ length d2 = length d1 /\ xored c1 c2 = xored d1 d2.
Proof.
  exists (repeat 0 32), id_a, text, again, secret, (crypted (repeat 0 32) id_a again). split; [exact made_1|]. split; [exact made_2|]. split; [discriminate|]. split; [reflexivity|]. vm_compute. reflexivity.
Qed.
