(** What csn-tool crypt has to do (C39-C41). *)
From Verif Require Import Base SpecBasic SpecCrypto Utils Tool.
Local Open Scope N_scope.

(** ** Names *)
(** A path with this last component. *)
Definition last_part (path base : bytes) : Prop :=
  ~ In 47 base /\ (path = base \/ exists dir, path = dir ++ [47] ++ base).
(** The names chunks have in a store: 64 hex digits denoting the id, ".cacnk" and possibly ".enc". *)
Definition chunk_path (path id : bytes) : Prop := exists hx,
  length hx = 64%nat /\ hex_denotes hx id /\ (last_part path (hx ++ bs ".cacnk") \/ last_part path (hx ++ bs ".cacnk.enc")).
(** Names with four more characters. *)
Definition odd_path (path id : bytes) : Prop := exists hx j,
  length hx = 64%nat /\ hex_denotes hx id /\ length j = 4%nat /\ last_part path (hx ++ j ++ bs ".cacnk").
(** The name of the output if none is given. *)
Definition other_name (input out : bytes) : Prop := exists b,
  (input = b ++ bs ".cacnk" /\ out = b ++ bs ".cacnk.enc") \/ (input = b ++ bs ".cacnk.enc" /\ out = b ++ bs ".cacnk").
Definition output_name (input : bytes) (given : option bytes) (out : bytes) : Prop :=
  match given with Some o => out = o | None => other_name input out end.

(** ** Keys: the text a KEYSPEC refers to, 64 hex digits *)
Inductive tkey_text (w : tworld) (spec : bytes) : bytes -> Prop :=
| tk_lit s : spec = bs "key:" ++ s -> tkey_text w spec s
| tk_env v s : spec = bs "env:" ++ v -> tw_env w v = Some s -> tkey_text w spec s
| tk_file p d : spec = bs "file:" ++ p -> tw_fs w p = Some d -> tkey_text w spec (chomp (cstr d)).
Definition tool_key (w : tworld) (spec key : bytes) : Prop :=
  exists s, tkey_text w spec s /\ length s = 64%nat /\ hex_denotes s key.
Definition tool_strings (w : tworld) : Prop := forall v s, tw_env w v = Some s -> no_nul s.

(** ** Content: XChaCha20 with the first 24 bytes of the id as nonce *)
Definition crypted (key id data : bytes) : bytes := xchacha key (firstn 24 id) data.
(** [d] is the result of crypting [data], which is not too large. *)
Definition is_crypted (key id data d : bytes) : Prop :=
  length d = length data /\ (blen data < 4294967296 -> d = crypted key id data).

(** Files that exist are not changed. *)
Definition keeps (w w' : tworld) : Prop := forall p d, tw_fs w p = Some d -> tw_fs w' p = Some d.

(** Lines of standard input. *)
Definition input_lines (s : bytes) (ls : list bytes) : Prop :=
  s = concat (map (fun l => l ++ [10]) ls) /\ Forall (fun l => no_nul l /\ (forall c, In c l -> ~ eol c) /\ (length l < 4095)%nat) ls.

(** ** Command lines: csn-tool crypt KEYSPEC [INPUT [OUTPUT]] *)
Definition crypt_args (argv : list bytes) (spec : bytes) (input output : option bytes) : Prop :=
  exists prog, argv = [prog; bs "crypt"; spec] ++ match input with None => [] | Some i => i :: match output with None => [] | Some o => [o] end end
    /\ (input = None -> output = None).
