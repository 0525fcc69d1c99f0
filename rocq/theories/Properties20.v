(** Properties C83 and C84: what a result depends on, and exit statuses.  Statements only. *)
From Verif Require Import Base SpecBasic SpecEnv Utils Chunker Caibx MainProg Patchdd Tool SpecCaibx SpecMain SpecRun PfSame Toy Ex2 Ex6 Ex21.
Local Open Scope N_scope.

(** ** C83: the result depends on the index only *)
(** Two successful runs with the same index, with whatever stores, servers, keys, earlier target contents and names,
    on different machines and at different times: the targets agree over the whole image, or the runs exhibit two
    different pieces of data with the same hash. *)
Theorem C83_same E1 argv1 w1 w1' E2 argv2 w2 w2' iino1 iino2 tino1 tino2 p n :
  sane E1 argv1 w1 -> good_index E1 argv1 w1 -> hash_reliable E1 w1 -> main E1 argv1 w1 = (Ok 0, w1') ->
  sane E2 argv2 w2 -> good_index E2 argv2 w2 -> hash_reliable E2 w2 -> main E2 argv2 w2 = (Ok 0, w2') ->
  (forall d, e_H E1 d = e_H E2 d) -> e_open E1 (cmd_index argv1) = Some iino1 -> e_open E2 (cmd_index argv2) = Some iino2 -> w_files w1 iino1 = w_files w2 iino2 ->
  e_open_rw E1 (cmd_target argv1) = Some tino1 -> e_open_rw E2 (cmd_target argv2) = Some tino2 -> valid_index (w_files w1 iino1) p n ->
  let size := ent_start (w_files w1 iino1) (N.to_nat n) in
  size <= blen (w_files w1' tino1) /\ size <= blen (w_files w2' tino2) /\
  (firstn (N.to_nat size) (w_files w1' tino1) = firstn (N.to_nat size) (w_files w2' tino2) \/
   exists i, (i < N.to_nat n)%nat /\ ent_slice (w_files w1 iino1) i (w_files w1' tino1) <> ent_slice (w_files w1 iino1) i (w_files w2' tino2) /\
     e_H E1 (ent_slice (w_files w1 iino1) i (w_files w1' tino1)) = e_H E1 (ent_slice (w_files w1 iino1) i (w_files w2' tino2))).
Proof. exact (same_result E1 argv1 w1 w1' E2 argv2 w2 w2' iino1 iino2 tino1 tino2 p n). Qed.
Print Assumptions C83_same.
(** Two such runs: one scans the old image, the other has an index for it. *)
Example C83_met : (sane toy0 csn_su (w21 []) /\ good_index toy0 csn_su (w21 []) /\ hash_reliable toy0 (w21 []) /\ fst (main toy0 csn_su (w21 [])) = Ok 0) /\
  (sane toy0 csn_sj (w21 more) /\ good_index toy0 csn_sj (w21 more) /\ hash_reliable toy0 (w21 more) /\ fst (main toy0 csn_sj (w21 more)) = Ok 0) /\
  e_open toy0 (cmd_index csn_su) = Some 105%nat /\ e_open toy0 (cmd_index csn_sj) = Some 105%nat /\ w_files (w21 []) 105%nat = w_files (w21 more) 105%nat /\
  e_open_rw toy0 (cmd_target csn_su) = Some 116%nat /\ e_open_rw toy0 (cmd_target csn_sj) = Some 116%nat /\ valid_index (w_files (w21 []) 105%nat) p_ex 3.
Proof. exact met83. Qed.

(** ** C84: exit statuses *)
(** csn, casync, patchdd and csn-tool end with status 0 or 1 when they end by themselves. *)
Theorem C84_main E argv w c w' : main E argv w = (Ok c, w') -> c = 0 \/ c = 1.
Proof. exact (main_status E argv w c w'). Qed.
Print Assumptions C84_main.
Theorem C84_patchdd E argv w c w' : patchdd_main E argv w = (Ok c, w') -> c = 0 \/ c = 1.
Proof. exact (patchdd_status E argv w c w'). Qed.
Print Assumptions C84_patchdd.
Theorem C84_tool argv w c w' : tool_main argv w = (Ok c, w') -> c = 0 \/ c = 1.
Proof. exact (tool_status argv w c w'). Qed.
Print Assumptions C84_tool.
(** Command lines with too few arguments, and other program names, give status 1 and touch nothing. *)
Theorem C84_usage E argv w : let app := basename (nth 0 argv []) in app = bs "csn" /\ (length argv < 4)%nat \/ app = bs "casync" /\ (length argv < 3)%nat \/ app <> bs "csn" /\ app <> bs "casync" ->
  main E argv w = (Ok 1, w).
Proof. exact (main_usage E argv w). Qed.
Print Assumptions C84_usage.
Theorem C84_tool_usage argv w : (length argv < 2)%nat -> tool_main argv w = (Ok 1, w).
Proof. exact (tool_usage argv w). Qed.
Print Assumptions C84_tool_usage.
(** csn-tool.c:206: an unknown command prints the usage and reports success. *)
Theorem C84_unknown_refuted : exists cmd, cmd <> bs "crypt" /\ cmd <> bs "-h" /\ cmd <> bs "--help" /\ forall prog rest w, tool_main (prog :: cmd :: rest) w = (Ok 0, w).
Proof. exact tool_unknown_ex. Qed.
Print Assumptions C84_unknown_refuted.
