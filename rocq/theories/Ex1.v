(** Witnesses for Properties1.v: counterexamples and cases meeting the hypotheses. *)
From Verif Require Import Base Lib SpecBasic SpecCrypto SpecEnv Utils Sha Encrypt PfUtils PfBasic PfIO PfEncrypt PfKeyspec Toy.
Local Open Scope N_scope.

Lemma chomp_refuted : exists s t, no_nul s /\ chomped s t /\ chomp s <> t.
Proof.
  (* "a\nb": nothing trails, but everything from the newline on is cut *)
  exists [97; 10; 98], [97; 10; 98]. split; [|split].
  - unfold no_nul; cbn; lia.
  - exists []. split; [reflexivity|]. split; [constructor|].
    intros t' c H. destruct t' as [|a [|b [|d t']]]; try discriminate H.
    + injection H as _ _ <-. unfold eol. lia.
    + destruct t'; discriminate H.
  - discriminate.
Qed.

Definition kc_world (kv : list kev) : world := mkWorld (fun _ => []) [] [] true kv 0 [].

Lemma sha_once_refuted : exists E data w d w',
  hash_ok E /\ sha_once E data w = (Ok d, w') /\ d <> e_H E data.
Proof.
  (* three bytes; the kernel takes one, then fails: the digest is that of the last two *)
  exists toy0, [1; 2; 3], (kc_world [KN 0; KErr]). eexists. eexists.
  split; [apply toy_ok|]. split; [vm_compute; reflexivity|]. vm_compute. discriminate.
Qed.

Lemma sha_once_partial_sends :
  sha_once toy0 [1; 2; 3] (kc_world [KN 0; KIntr; KN 4; KIntr; KN 0]) =
  (Ok (e_H toy0 [1; 2; 3]), kc_world []) /\ kernel_ok [KN 0; KIntr; KN 4; KIntr; KN 0].
Proof. split; [vm_compute; reflexivity|repeat constructor]. Qed.

Definition io_world (f : bytes) (ev : list ioev) : world := mkWorld (fun _ => f) ev [] false [] 0 [].

Definition hex64 : bytes := concat (repeat (bs "0aF9") 16).
Definition key32 : bytes := concat (repeat [10; 249] 16).
Lemma keyspec_example :
  let E := toy_env no_server open_char open_char (fun _ => KReg) (fun v => if beq v (bs "K") then Some hex64 else None) in
  let w := io_world (hex64 ++ [13; 10]) [IoN 20; IoIntr; IoN 100] in
  fst (encrypt_parse_keyspec_buf E (repeat 7 32) (bs "key:" ++ hex64) w) = Ok (true, key32) /\
  fst (encrypt_parse_keyspec_buf E (repeat 7 32) (bs "env:K") w) = Ok (true, key32) /\
  fst (encrypt_parse_keyspec_buf E (repeat 7 32) (bs "file:f") w) = Ok (true, key32) /\
  fst (encrypt_parse_keyspec_buf E (repeat 7 32) (bs "key:" ++ repeat 48 63 ++ bs "g") w) = Ok (false, repeat 0 32) /\
  fst (encrypt_parse_keyspec_buf E (repeat 7 32) (bs "key:ab") w) = Ok (false, repeat 7 32).
Proof. vm_compute. auto. Qed.
