(** The number of queries that is printed at the end of a run (C107).  Statements only. *)
From Verif Require Import Base Lib Utils Log SpecLog LogSites Chunker Caibx StoreLocal StoreHttp Chain MainProg Queries
  SpecBasic SpecEnv SpecStore SpecCaibx SpecMain SpecRun SpecStats SpecReport SpecQueries PfQueries Toy Ex1 Ex2 Ex4 Ex6 Ex12 Ex15 Ex41.
Local Open Scope N_scope.

(** The counter has no influence: with it a run does and leaves what it does and leaves without it. *)
Theorem C107_same E argv w :
  match main_q E argv w with
  | (Ok (c, _), w') => main E argv w = (Ok c, w')
  | (Abort, w') => main E argv w = (Abort, w')
  | (UB, w') => main E argv w = (UB, w')
  | (Halt, w') => main E argv w = (Halt, w')
  end.
Proof. exact (main_same E argv w). Qed.
Print Assumptions C107_same.

(** If the number is printed, the run has succeeded, and up to the width of the counter the number is that of the chunks which the stores
    delivered together, which is that of the entries after the beginning the target held that do not repeat their predecessor. *)
Theorem C107_counted E b argv w w' c q : sane E argv w -> good_index E argv w -> (b = true -> hash_reliable E w) ->
  (forall iino p n i, e_open E (cmd_index argv) = Some iino -> valid_index (w_files w iino) p n -> (i < N.to_nat n)%nat -> 0 < ent_size (w_files w iino) i) ->
  main_q E argv w = (Ok (c, Some q), w') ->
  c = 0 /\ exists tr, run_trace w w' tr /\ q = all_delivered (length (cmd_stores argv)) tr mod 2 ^ 32 /\
    exists iino tino p n k, e_open E (cmd_index argv) = Some iino /\ e_open_rw E (cmd_target argv) = Some tino /\ valid_index (w_files w iino) p n /\ (k <= N.to_nat n)%nat /\
      (forall j, (j < k)%nat -> SpecMain.holds E b (w_files w iino) j (w_files w tino)) /\ q = N.of_nat (n_to_fetch (w_files w iino) k (N.to_nat n)) mod 2 ^ 32.
Proof. exact (queries_counted E b argv w w' c q). Qed.
Print Assumptions C107_counted.
Example C107_meets : sane toy0 csn_s w_run /\ good_index toy0 csn_s w_run /\ hash_reliable toy0 w_run /\
  (forall iino p n i, e_open toy0 (cmd_index csn_s) = Some iino -> valid_index (w_files w_run iino) p n -> (i < N.to_nat n)%nat -> 0 < ent_size (w_files w_run iino) i) /\
  exists w', main_q toy0 csn_s w_run = (Ok (0, Some 2), w').
Proof. exact meets41. Qed.

(** A run that succeeds always prints it. *)
Theorem C107_printed E argv w w' : main E argv w = (Ok 0, w') -> exists q, main_q E argv w = (Ok (0, Some q), w').
Proof. exact (success_printed E argv w w'). Qed.
Print Assumptions C107_printed.
Example C107_printed_met : exists w', main toy0 csn_s w_run = (Ok 0, w').
Proof. destruct run_eq as (w' & A & _). exists w'. exact A. Qed.

(** The line shows this number and nothing else. *)
Theorem C107_line s tty loglevel path q : In s queries_sites -> is_basename path (bs "store.c") -> U_LOG_INFO <= loglevel ->
  queries_line s tty loglevel path q = Some (full_message s tty (queries_text q)).
Proof. exact (queries_complete s tty loglevel path q). Qed.
Print Assumptions C107_line.
Example C107_line_met : In site68 queries_sites /\ queries_line site68 false U_LOG_INFO (bs "store.c") 2 = Some (bs "INF store.c:store_chain_free:68 2 queries received by chain0" ++ NL).
Proof. exact line41. Qed.
