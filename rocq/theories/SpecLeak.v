(** What encrypted chunks show to somebody without the key (C92). *)
From Verif Require Import Base SpecBasic SpecTool Utils Tool.
Local Open Scope N_scope.

(** A successful run of csn-tool with the key [key] has turned a file named after [id] that holds [data] into a new file that
    holds [c]. *)
Definition tool_made (key id data c : bytes) : Prop := exists argv w w' spec input out,
  Forall no_nul argv /\ tool_strings w /\ crypt_args argv spec (Some input) None /\ tool_key w spec key /\ chunk_path input id /\ other_name input out /\
  tw_fs w input = Some data /\ tw_fs w out = None /\ tool_main argv w = (Ok 0, w') /\ tw_fs w' out = Some c.
(** Byte-wise exclusive or. *)
Definition xored (a b : bytes) : bytes := map (fun i => N.lxor (nth i a 0) (nth i b 0)) (seq 0 (length a)).
