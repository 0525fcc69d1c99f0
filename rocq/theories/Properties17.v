(** Properties C79 and C80: command lines of casync; stores encrypted by csn-tool.  Statements only. *)
From Verif Require Import Base SpecBasic SpecCrypto SpecEnv Utils StoreHttp Chain MainProg SpecHttp SpecMain SpecRun SpecAvail SpecCasync SpecGetopt Tool SpecTool SpecHost
  PfKeyspec PfGetopt PfAvail PfHost Toy Ex2 Ex4 Ex6 Ex8 Ex9 Ex16 Ex17 Ex18.
Local Open Scope N_scope.

(** ** C79: the command lines casync understands *)
(** They are exactly those of the grammar. *)
Theorem C79_grammar l st ws : line l st ws <-> exists os, getopt_all l = (os, ws) /\ ~ In OptHelp os /\ ~ In OptBad os /\ store_opts os = st.
Proof. exact (line_iff l st ws). Qed.
Print Assumptions C79_grammar.
(** Any of them that asks for an extraction acts as csn on the last two arguments and the stores named. *)
Theorem C79_extract E argv st ws w : beq (basename (nth 0 argv [])) (bs "casync") = true -> (3 <= length argv)%nat -> line (skipn 1 argv) st ws -> (3 <= length ws)%nat ->
  nth 0 ws [] = bs "extract" -> st <> [] -> Forall (fun a => ~ mentions a) st -> (w_alloc w = [] \/ (length st <= casync_slots argv)%nat) ->
  main E argv w = main (with_driver None E) (bs "csn" :: nth (length argv - 2) argv [] :: nth (length argv - 1) argv [] :: st) w.
Proof. exact (fun A B => casync_line E argv (skipn 1 argv) st ws w A B eq_refl). Qed.
Print Assumptions C79_extract.
(** The documented form acts as csn on what it names; without the option that is ignored and with values given as separate words the slots suffice. *)
Theorem C79_documented E prog pre index target st w : beq (basename prog) (bs "casync") = true -> options pre st -> st <> [] -> word index -> word target ->
  Forall (fun a => ~ mentions a) st -> w_alloc w = [] \/ length pre = (2 * length st)%nat ->
  main E (prog :: pre ++ [bs "extract"; index; target]) w = main (with_driver None E) (bs "csn" :: index :: target :: st) w.
Proof. exact (casync_documented E prog pre index target st w). Qed.
Print Assumptions C79_documented.
Example C79_met : options opts_x [bs "s"; bs "t"] /\ word (bs "i") /\ word (bs "t") /\ Forall (fun a => ~ mentions a) [bs "s"; bs "t"] /\ w_alloc w_run = [] /\
  starts (fst (init toy0 (bs "casync" :: opts_x ++ [bs "extract"; bs "i"; bs "t"]) w_run)) = true.
Proof. exact documented_x. Qed.
(** Options after the words are understood, but the index and the target are then looked for in the wrong place. *)
Theorem C79_late_refuted : exists E argv i t s w, beq (basename (nth 0 argv [])) (bs "casync") = true /\ line (skipn 1 argv) [s] [bs "extract"; i; t] /\ w_alloc w = [] /\ e_getenv E DRIVER = None /\
  starts (fst (init E [bs "csn"; i; t; s] w)) = true /\ starts (fst (init E argv w)) = false.
Proof. exact late_refuted. Qed.
Print Assumptions C79_late_refuted.

(** ** C80: csn reads what csn-tool encrypts *)
(** A chunk file named on standard input is encrypted to the name at which csn looks for it. *)
Theorem C80_encrypts argv w w' spec key ls root id path body : Forall no_nul argv -> tool_strings w -> crypt_args argv spec None None -> input_lines (tw_stdin w) ls -> tool_main argv w = (Ok 0, w') ->
  tool_key w spec key -> length id = 32%nat -> In path ls -> casync_url root id path false -> tw_fs w path = Some body -> blen body < 4294967296 -> tw_fs w (path ++ bs ".enc") = None ->
  tw_fs w' (path ++ bs ".enc") = Some (crypted key id body).
Proof. exact (tool_encrypts argv w w' spec key ls root id path body). Qed.
Print Assumptions C80_encrypts.
(** A directory treated like this and put on a server is a store for that key. *)
Theorem C80_store E base root argv w w' spec key ls P path : Forall no_nul argv -> tool_strings w -> crypt_args argv spec None None -> input_lines (tw_stdin w) ls -> tool_main argv w = (Ok 0, w') ->
  tool_key w spec key -> length (e_H E P) = 32%nat -> hosts E base root (tw_fs w') -> kept_at E root (tw_fs w) P path 4294967295 -> In path ls -> tw_fs w (path ++ bs ".enc") = None ->
  has_chunk E base (Some key) P.
Proof. exact (hosted_encrypted E base root argv w w' spec key ls P path). Qed.
Print Assumptions C80_store.
(** From the directory with the plain chunks to the image: the tool is run, the directory hosted, csn told the key (C05 has the rest). *)
Theorem C80_end_to_end E argv w pieces url base spec t key root targv tw tw' tspec ls su w1 :
  Forall no_nul targv -> tool_strings tw -> crypt_args targv tspec None None -> input_lines (tw_stdin tw) ls -> tool_main targv tw = (Ok 0, tw') -> tool_key tw tspec key ->
  (forall P, In P pieces -> exists path, kept_at E root (tw_fs tw) P path 4294967295 /\ In path ls /\ tw_fs tw (path ++ bs ".enc") = None) ->
  url_base url base -> hosts E base root (tw_fs tw') -> ~ In 35 spec -> ~ In 44 spec -> key_text E w spec t -> hex_denotes t key ->
  let arg := url ++ bs "#encrypt=" ++ spec in
  sane E argv w -> described E argv w pieces -> (forall P, In P pieces -> 0 < blen P <= BUF_SIZE) ->
  error_free (w_io w) -> w_alloc w = [] -> hash_reliable E w -> (forall ino, e_open_rw E (cmd_target argv) = Some ino -> has_room E w ino (blen (concat pieces))) ->
  In arg (cmd_stores argv) -> classify_arg (cmd_target argv) arg = ArgHttp arg ->
  init E argv w = (Ok (InitOk su), w1) -> w_kcapi w1 = false ->
  (forall a path ip, In a (cmd_stores argv) -> classify_arg (cmd_target argv) a = ArgLocal path ip -> ip = None) ->
  (enough (length pieces) (length (cmd_stores argv)) <= transfers (w_io w1))%nat ->
  fst (main E argv w) = Ok 0 \/ exists tr, run_trace w (snd (main E argv w)) tr /\ false_answer E pieces tr.
Proof. exact (encrypted_end_to_end E argv w pieces url base spec t key root targv tw tw' tspec ls su w1). Qed.
Print Assumptions C80_end_to_end.
Example C80_met_tool : Forall no_nul crypt_in /\ tool_strings tw18 /\ crypt_args crypt_in k0 None None /\ input_lines (tw_stdin tw18) [path_a; path_b] /\
  tool_main crypt_in tw18 = (Ok 0, tw18') /\ tool_key tw18 k0 zeros /\
  (forall P, In P pieces9 -> exists path, kept_at E18 dir (tw_fs tw18) P path 4294967295 /\ In path [path_a; path_b] /\ tw_fs tw18 (path ++ bs ".enc") = None).
Proof. exact tool_side18. Qed.
Example C80_met_key w : url_base url18 site /\ hosts E18 site dir (tw_fs tw18') /\ ~ In 35 k0 /\ ~ In 44 k0 /\ key_text E18 w k0 (repeat 48 64) /\ hex_denotes (repeat 48 64) zeros.
Proof. exact (key_side18 w). Qed.
Example C80_met_csn n : let arg := url18 ++ bs "#encrypt=" ++ k0 in
  sane E18 argv18 (w9 (20 + n)) /\ described E18 argv18 (w9 (20 + n)) pieces9 /\ (forall P, In P pieces9 -> 0 < blen P <= BUF_SIZE) /\
  error_free (w_io (w9 (20 + n))) /\ w_alloc (w9 (20 + n)) = [] /\ hash_reliable E18 (w9 (20 + n)) /\
  (forall ino, e_open_rw E18 (cmd_target argv18) = Some ino -> has_room E18 (w9 (20 + n)) ino (blen (concat pieces9))) /\
  In arg (cmd_stores argv18) /\ classify_arg (cmd_target argv18) arg = ArgHttp arg /\
  (forall a path ip, In a (cmd_stores argv18) -> classify_arg (cmd_target argv18) a = ArgLocal path ip -> ip = None) /\
  exists su w1, init E18 argv18 (w9 (20 + n)) = (Ok (InitOk su), w1) /\ w_kcapi w1 = false /\ (n <= transfers (w_io w1))%nat.
Proof. exact (csn_side18 n). Qed.
