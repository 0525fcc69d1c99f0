(** Property C81: only chunks that are missing are fetched from later stores.  Statements only. *)
From Verif Require Import Base SpecBasic SpecEnv Utils Chunker Caibx MainProg SpecChunker SpecCaibx SpecMain SpecRun SpecProgress SpecDelta PfDelta Toy Ex2 Ex4 Ex6 Ex9 Ex19.
Local Open Scope N_scope.

(** ** C81: what a local store holds is not fetched from a later store *)
(** Every store is asked only for entries of the index, at most once for each and in their order; a store after a
    local one is asked only for chunks the local one does not hold. *)
Theorem C81_missing E argv w iino p n k arg j tr : sane E argv w -> hash_reliable E w -> error_free (w_io w) -> ~ In false (w_alloc w) ->
  e_open E (cmd_index argv) = Some iino -> valid_index (w_files w iino) p n -> nth_error (cmd_stores argv) k = Some arg -> run_trace w (snd (main E argv w)) tr ->
  asked_for (w_files w iino) (N.to_nat n) (fun i => (k < j)%nat -> ~ seeded E w (cmd_target argv) p arg (ent_id (w_files w iino) i)) j tr.
Proof. exact (fun A B C D F G H I => delta E argv w A B C D iino p n F G k arg j tr H I). Qed.
Print Assumptions C81_missing.
(** In other words: a chunk that a local store holds is asked for only up to that store. *)
Theorem C81_up_to E argv w iino p n k arg j id tr : sane E argv w -> hash_reliable E w -> error_free (w_io w) -> ~ In false (w_alloc w) ->
  e_open E (cmd_index argv) = Some iino -> valid_index (w_files w iino) p n -> nth_error (cmd_stores argv) k = Some arg -> run_trace w (snd (main E argv w)) tr ->
  In (TQuery j id) tr -> seeded E w (cmd_target argv) p arg id -> (j <= k)%nat.
Proof. exact (delta_query E argv w iino p n k arg j id tr). Qed.
Print Assumptions C81_up_to.
(** A later store is asked at most as often as there are entries that the local one is not known to hold. *)
Theorem C81_few E argv w iino p n k arg j tr (held : nat -> bool) : sane E argv w -> hash_reliable E w -> error_free (w_io w) -> ~ In false (w_alloc w) ->
  e_open E (cmd_index argv) = Some iino -> valid_index (w_files w iino) p n -> nth_error (cmd_stores argv) k = Some arg -> run_trace w (snd (main E argv w)) tr -> (k < j)%nat ->
  (forall i, (i < N.to_nat n)%nat -> held i = true -> seeded E w (cmd_target argv) p arg (ent_id (w_files w iino) i)) ->
  total (ask_ev j) tr <= N.of_nat (length (filter (fun i => negb (held i)) (seq 0 (N.to_nat n)))).
Proof. exact (delta_few E argv w iino p n k arg j tr held). Qed.
Print Assumptions C81_few.
(** An update from an older image with its index and a server: the server is asked for what is new. *)
Example C81_met n : sane E9 argv19 (w19 n) /\ hash_reliable E9 (w19 n) /\ error_free (w_io (w19 n)) /\ ~ In false (w_alloc (w19 n)) /\ e_open E9 (cmd_index argv19) = Some 105%nat /\
  valid_index (w_files (w19 n) 105%nat) p_ex 3 /\ nth_error (cmd_stores argv19) 0 = Some arg19 /\ seeded E9 (w19 n) (cmd_target argv19) p_ex arg19 (ent_id (w_files (w19 n) 105%nat) 1).
Proof. exact (met_index n). Qed.
Example C81_run : let r := main E9 argv19 (w19 60) in (fst r, w_files (snd r) 116%nat, asked_of 1 (w_trace (snd r)), asked_of 0 (w_trace (snd r)))
  = (Ok 0, pa ++ pb ++ pa, [toyH pa; toyH pa], [toyH pa; toyH pb; toyH pa]).
Proof. exact run19. Qed.
(** An image that is scanned and holds everything. *)
Example C81_scan_met : sane toy0 csn_st w_run /\ hash_reliable toy0 w_run /\ error_free (w_io w_run) /\ ~ In false (w_alloc w_run) /\ e_open toy0 (cmd_index csn_st) = Some 105%nat /\
  valid_index (w_files w_run 105%nat) p_ex 4 /\ nth_error (cmd_stores csn_st) 0 = Some (bs "s") /\
  (forall i, (i < 4)%nat -> (fun _ : nat => true) i = true -> seeded toy0 w_run (cmd_target csn_st) p_ex (bs "s") (ent_id (w_files w_run 105%nat) i)).
Proof. exact met_scan. Qed.
