(** Properties C39-C41 and C52: csn-tool.  Statements only. *)
From Verif Require Import Base Lib SpecBasic SpecCrypto Utils Encrypt Tool SpecTool PfTool Ex8.
Local Open Scope N_scope.

(** ** C39 *)
(** Crypting NAME.cacnk to NAME.cacnk.enc (or the other way round) and, later, with the input gone and the same
    key, the result again. *)
Theorem C39_roundtrip argv1 argv2 w1 w1' w2 w2' spec1 spec2 key input enc id data :
  Forall no_nul argv1 -> Forall no_nul argv2 -> tool_strings w1 -> tool_strings w2 ->
  crypt_args argv1 spec1 (Some input) None -> crypt_args argv2 spec2 (Some enc) None -> tool_key w1 spec1 key -> tool_key w2 spec2 key ->
  chunk_path input id -> other_name input enc -> tw_fs w1 input = Some data -> tw_fs w1 enc = None ->
  tool_main argv1 w1 = (Ok 0, w1') ->
  tw_fs w2 enc = tw_fs w1' enc -> tw_fs w2 input = None -> tool_main argv2 w2 = (Ok 0, w2') ->
  tw_fs w2' input = Some data /\ exists c, tw_fs w1' enc = Some c /\ is_crypted key id data c.
Proof. exact (tool_roundtrip argv1 argv2 w1 w1' w2 w2' spec1 spec2 key input enc id data). Qed.
Print Assumptions C39_roundtrip.
Example C39_meets : Forall no_nul crypt_p /\ Forall no_nul crypt_e /\ Forall no_nul crypt_in.
Proof. exact ex_argv. Qed.
Example C39_meets_args : crypt_args crypt_p k0 (Some plain_p) None /\ crypt_args crypt_e k0 (Some enc_p) None /\ crypt_args crypt_in k0 None None.
Proof. exact ex_args. Qed.
Example C39_meets_key w : tool_key w k0 (repeat 0 32).
Proof. exact (key_0 w). Qed.
Example C39_meets_strings fs io i : tool_strings (tool_world fs io i).
Proof. exact (ex_strings fs io i). Qed.
Example C39_meets_names : chunk_path plain_p id_a /\ other_name plain_p enc_p.
Proof. exact (conj plain_chunk ex_other). Qed.
Example C39_there : let r := tool_main crypt_p w_a in (fst r, tw_fs (snd r) plain_p, tw_fs (snd r) enc_p) = (Ok 0, Some text, Some secret).
Proof. exact ex_there. Qed.
Example C39_back : let r := tool_main crypt_e w_b in (fst r, tw_fs (snd r) plain_p, tw_fs (snd r) enc_p) = (Ok 0, Some text, Some secret).
Proof. exact ex_back. Qed.
Example C39_secret : secret <> text.
Proof. exact ex_secret. Qed.

(** No existing file is modified, however the run ends; nothing undefined happens. *)
Theorem C39_keeps argv w : Forall no_nul argv -> tool_strings w -> fst (tool_main argv w) <> UB /\ keeps w (snd (tool_main argv w)).
Proof. exact (tool_keeps argv w). Qed.
Print Assumptions C39_keeps.

(** Every file that a run creates, however it ends, has the name of the output for some input and a prefix of the crypted input. *)
Theorem C39_outputs argv w p d : Forall no_nul argv -> tool_strings w -> let w' := snd (tool_main argv w) in
  tw_fs w p = None -> tw_fs w' p = Some d ->
  exists spec key input given id data c, tool_key w spec key /\ (crypt_args argv spec (Some input) given \/ crypt_args argv spec None None /\ given = None) /\
    (chunk_path input id \/ odd_path input id) /\ output_name input given p /\ tw_fs w' input = Some data /\ is_crypted key id data c /\
    (exists n, d = firstn n c) /\ (fst (tool_main argv w) = Ok 0 -> d = c).
Proof. exact (tool_outputs argv w p d). Qed.
Print Assumptions C39_outputs.
(** One file on the command line. *)
Theorem C39_crypts argv w w' spec input given : Forall no_nul argv -> tool_strings w -> crypt_args argv spec (Some input) given -> tool_main argv w = (Ok 0, w') ->
  exists key id out, tool_key w spec key /\ (chunk_path input id \/ odd_path input id) /\ output_name input given out /\
    (tw_fs w out = None -> exists data d, tw_fs w input = Some data /\ is_crypted key id data d /\
      (out = bs "-" -> tw_stdout w' = tw_stdout w ++ d) /\ (out <> bs "-" -> tw_fs w' out = Some d) /\
      (4294967296 <= blen data -> forall i, blen data mod 4294967296 <= N.of_nat i -> byte_of d i = byte_of data i)).
Proof. exact (tool_crypts argv w w' spec input given). Qed.
Print Assumptions C39_crypts.
(** Names on standard input. *)
Theorem C39_lines argv w w' spec ls : Forall no_nul argv -> tool_strings w -> crypt_args argv spec None None -> input_lines (tw_stdin w) ls -> tool_main argv w = (Ok 0, w') ->
  exists key, tool_key w spec key /\ Forall (fun l => exists id out d, (chunk_path l id \/ odd_path l id) /\ other_name l out /\ tw_fs w' out = Some d /\
      (tw_fs w out = None -> exists l' id' data, In l' ls /\ (chunk_path l' id' \/ odd_path l' id') /\ other_name l' out /\ tw_fs w' l' = Some data /\ is_crypted key id' data d)) ls /\
    forall p d, tw_fs w p = None -> tw_fs w' p = Some d -> exists l, In l ls /\ other_name l p.
Proof. exact (tool_lines argv w w' spec ls). Qed.
Print Assumptions C39_lines.
Example C39_lines_meets : input_lines (tw_stdin w_in) [plain_p].
Proof. exact ex_lines. Qed.
Example C39_lines_runs : let r := tool_main crypt_in w_in in (fst r, tw_fs (snd r) enc_p) = (Ok 0, Some secret).
Proof. exact ex_in. Qed.
(** Success, if no call fails. *)
Theorem C39_succeeds argv w spec input given id data s key : Forall no_nul argv -> tool_strings w -> crypt_args argv spec (Some input) given ->
  spec = bs "key:" ++ s -> length s = 64%nat -> hex_denotes s key -> chunk_path input id -> (given = None -> blen input <= 4091) -> tw_fs w input = Some data ->
  ~ In false (tw_ok w) -> error_free (tw_io w) -> (2 * length data <= transfers (tw_io w))%nat -> fst (tool_main argv w) = Ok 0.
Proof. exact (tool_succeeds argv w spec input given id data s key). Qed.
Print Assumptions C39_succeeds.
Example C39_succeeds_meets : ~ In false (tw_ok w_a) /\ error_free (tw_io w_a) /\ (2 * length text <= transfers (tw_io w_a))%nat /\ tw_fs w_a plain_p = Some text.
Proof. exact ex_enough. Qed.

(** ** C40 *)
(** A run that was killed, run again on the files it left, exits with 0, and the output is incomplete. *)
Theorem C40_refuted : exists argv spec input out key id data w1 w2 w3 d, Forall no_nul argv /\ crypt_args argv spec (Some input) None /\ tool_key w1 spec key /\ chunk_path input id /\ other_name input out /\
  tw_fs w1 input = Some data /\ tw_fs w1 out = None /\ fst (tool_main argv w1) = Halt /\
  (forall p, tw_fs w2 p = tw_fs (snd (tool_main argv w1)) p) /\ tool_main argv w2 = (Ok 0, w3) /\ tw_fs w3 out = Some d /\ ~ is_crypted key id data d.
Proof. exact rerun_incomplete. Qed.
Print Assumptions C40_refuted.
(** What holds: with the partial output removed, running again works, wherever the first run [w] stopped. *)
Theorem C40_output_removed argv w w2 w3 spec input given out : Forall no_nul argv -> tool_strings w2 -> crypt_args argv spec (Some input) given -> output_name input given out -> out <> bs "-" ->
  tw_fs w2 out = None -> (forall p, p <> out -> tw_fs w2 p = tw_fs (snd (tool_main argv w)) p) -> tool_strings w ->
  tool_main argv w2 = (Ok 0, w3) ->
  exists key id data d, tool_key w2 spec key /\ (chunk_path input id \/ odd_path input id) /\ tw_fs w2 input = Some data /\ (forall x, tw_fs w input = Some x -> x = data) /\ is_crypted key id data d /\ tw_fs w3 out = Some d.
Proof. exact (tool_stopped argv w w2 w3 spec input given out). Qed.
Print Assumptions C40_output_removed.
Example C40_meets : tw_fs w_rem enc_p = None /\ forall p, p <> enc_p -> tw_fs w_rem p = tw_fs (snd (tool_main crypt_p w_cut)) p.
Proof. exact ex_removed. Qed.
Example C40_stops : let r := tool_main crypt_p w_cut in (fst r, tw_fs (snd r) enc_p) = (Halt, Some (firstn 2 secret)).
Proof. exact ex_cut. Qed.

(** ** C41 *)
Theorem C41_refuted : exists path id, no_nul path /\ chunk_id_from_path path = Some id /\ ~ exists id', chunk_path path id'.
Proof. exact odd_accepted. Qed.
Print Assumptions C41_refuted.
(** Exactly these names are accepted. *)
Theorem C41_names path id : no_nul path -> (chunk_id_from_path path = Some id <-> chunk_path path id \/ odd_path path id).
Proof. exact (chunk_names path id). Qed.
Print Assumptions C41_names.
Example C41_meets : no_nul plain_p /\ chunk_id_from_path plain_p = Some id_a.
Proof. exact plain_accepted. Qed.

(** ** C52 *)
(** A file of 4 GiB is copied as it is. *)
Theorem C52_refuted : exists argv w w' input out data, Forall no_nul argv /\ crypt_args argv k0 (Some input) None /\ (exists id, chunk_path input id) /\ other_name input out /\
  tw_fs w input = Some data /\ tw_fs w out = None /\ blen data = 4294967296 /\ tool_main argv w = (Ok 0, w') /\ tw_fs w' out = Some data.
Proof. exact plain_4g. Qed.
Print Assumptions C52_refuted.
(** Below 4 GiB, the whole file is transformed. *)
Theorem C52_small key id data : bytes_ok key -> length key = 32%nat -> bytes_ok id -> (24 <= length id)%nat ->
  is_crypted key id data (tcrypt key id data).
Proof. exact (tcrypt_spec key id data). Qed.
Print Assumptions C52_small.
Example C52_meets : tcrypt (repeat 0 32) id_a text = secret.
Proof. exact ex_tcrypt. Qed.
