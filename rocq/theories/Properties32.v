(** The name under which a program was called (C98). *)
From Verif Require Import Base MainProg Patchdd Tool SpecBasic SpecEnv SpecMain SpecRun SpecLog PfCalled Toy.
Local Open Scope N_scope.

(** Every path has a last component, which decides, and the rest of the path does not matter. *)
Theorem C98_component path : exists name, is_basename path name.
Proof. exact (has_basename path). Qed.
Print Assumptions C98_component.
Theorem C98_called E path name args w : is_basename path name -> name <> [] -> main E (path :: args) w = main E (name :: args) w.
Proof. exact (called E path name args w). Qed.
Print Assumptions C98_called.
(** Called as csn, the program takes index, target and stores from the places of the manual. *)
Theorem C98_csn E path w index target stores : is_basename path (bs "csn") -> let argv := path :: index :: target :: stores in
  cmd_index argv = index /\ cmd_target argv = target /\ cmd_stores argv = stores /\ main E argv w = main E (bs "csn" :: index :: target :: stores) w.
Proof. exact (called_csn E path w index target stores). Qed.
Print Assumptions C98_csn.
(** Under any other name it refuses to work and touches nothing. *)
Theorem C98_other E path name args w : is_basename path name -> name <> [] -> name <> bs "csn" -> name <> bs "casync" -> main E (path :: args) w = (Ok 1, w).
Proof. exact (called_other E path name args w). Qed.
Print Assumptions C98_other.
(** patchdd and csn-tool do not care. *)
Theorem C98_tools E p q args w tw : patchdd_main E (p :: args) w = patchdd_main E (q :: args) w /\ tool_main (p :: args) tw = tool_main (q :: args) tw.
Proof. exact (called_tools E p q args w tw). Qed.
Print Assumptions C98_tools.

Example C98_meets : is_basename (bs "/usr/bin/csn") (bs "csn") /\ is_basename (bs "csn/../casync") (bs "casync") /\ is_basename (bs "/opt/csn/csn-2") (bs "csn-2").
Proof. exact called_ex. Qed.
