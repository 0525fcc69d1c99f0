(** Properties C73-C74: what a run reports.  Statements only. *)
From Verif Require Import Base Utils Log SpecLog LogSites Chunker Caibx Index StoreLocal Target StoreHttp Chain MainProg Res Report
  SpecBasic SpecEnv SpecStore SpecCaibx SpecMain SpecRun SpecOrder SpecStats SpecReport PfKeyspec PfReport PfTally Toy Ex3 Ex6 Ex14 Ex15.
Local Open Scope N_scope.

(** ** C73: the key in the log *)
(** The line for a store shows the number of chunks and the first 127 bytes of what the store is called, nothing else. *)
Theorem C73_lines s tty loglevel path h target arg : In s answered_sites -> is_basename path (bs "store.c") -> U_LOG_INFO <= loglevel ->
  exists a, documented target arg a /\ answered_line s tty loglevel path h target arg = Some (full_message s tty (answered_text h (firstn 127 (called target a)))).
Proof. exact (answered_named s tty loglevel path h target arg). Qed.
Print Assumptions C73_lines.
Example C73_line : answered_line site71 false U_LOG_INFO (bs "store.c") 3 (bs "t") env_url =
  Some (bs "INF store.c:store_chain_free:71     3 answered by store http://h/x#encrypt=env:KEY" ++ NL).
Proof. exact env_line. Qed.
(** A key given in the argument of an HTTP store is used, and the line shows it (or the part that fits). *)
Theorem C73_key_used E w w' pre hex hs : env_strings E -> no_nul pre -> length hex = 64%nat -> Forall is_hex hex ->
  store_http_new E (pre ++ key_param ++ hex) w = (Ok (Some hs), w') -> exists key, hs_key hs = Some key /\ hex_denotes hex key.
Proof. exact (url_key E w w' pre hex hs). Qed.
Print Assumptions C73_key_used.
Theorem C73_key_shown s tty loglevel path h target pre hex : In s answered_sites -> is_basename path (bs "store.c") -> U_LOG_INFO <= loglevel ->
  startswith pre (bs "http") = true -> pre ++ key_param ++ hex <> target -> (length pre <= 114)%nat ->
  prints (firstn (114 - length pre) hex) (answered_line s tty loglevel path h target (pre ++ key_param ++ hex)).
Proof. exact (key_shown s tty loglevel path h target pre hex). Qed.
Print Assumptions C73_key_shown.
Example C73_key_met : startswith base_url (bs "http") = true /\ base_url ++ key_param ++ hex64 <> bs "t" /\ (length base_url <= 50)%nat /\ length hex64 = 64%nat /\ Forall is_hex hex64.
Proof. exact key_meets. Qed.
Example C73_key_run : made_key (fst (store_http_new toy0 (base_url ++ key_param ++ hex64) Ex13.w13)) = Some key32.
Proof. exact key_made. Qed.
(** At the default level the key of a store is printed. *)
Theorem C73_key_refuted : exists E w w' hs s level h target arg key, store_http_new E arg w = (Ok (Some hs), w') /\ hs_key hs = Some key /\ In s answered_sites /\
  u_log_init false None = (level, Some []) /\ exists text, hex_denotes text key /\ prints text (answered_line s false level (bs "store.c") h target arg).
Proof. exact key_refuted. Qed.
Print Assumptions C73_key_refuted.
(** An HTTP store that cannot be made is reported with its whole argument, at every level. *)
Theorem C73_failure_shown tty loglevel path arg : is_basename path (bs "main.c") -> prints arg (failed_line tty loglevel path arg).
Proof. exact (failed_shown tty loglevel path arg). Qed.
Print Assumptions C73_failure_shown.
Example C73_failure_met : is_basename (bs "../main.c") (bs "main.c").
Proof. exact main_c_base. Qed.

(** ** C74: the numbers of a run add up *)
(** When all entries were dealt with, the number of skipped chunks is the length of a prefix that the target held, and the stores
    together delivered one chunk for each entry after it that does not repeat its predecessor. *)
Theorem C74_summary E b argv w su w1 st w2 : sane E argv w -> good_index E argv w -> (b = true -> hash_reliable E w) ->
  (forall i, (i < N.to_nat (su_n su))%nat -> 0 < ent_size (w_files w (su_index su)) i) ->
  init E argv w = (Ok (InitOk su), w1) ->
  caibx_iterate_entries (entry_cb E (su_n su)) (su_index su) (su_params su) (su_n su) (initial_mstate su) w1 = (Ok (true, st), w2) ->
  let f := w_files w (su_index su) in let n := N.to_nat (su_n su) in
  exists k tr, (k <= n)%nat /\ m_skipped st = N.of_nat k /\ (forall j, (j < k)%nat -> SpecMain.holds E b f j (w_files w (t_ino (su_target su)))) /\
    w_trace w2 = tr ++ w_trace w1 /\ all_delivered (length (cmd_stores argv)) tr = N.of_nat (n_to_fetch f k n).
Proof. exact (summary_run E b argv w su w1 st w2). Qed.
Print Assumptions C74_summary.
Example C74_met : sane toy0 csn_s w_run /\ good_index toy0 csn_s w_run /\ hash_reliable toy0 w_run /\
  (forall i, (i < 4)%nat -> 0 < ent_size (w_files w_run 105%nat) i) /\ summary_of toy0 csn_s w_run = Some (1, 2, 2%nat).
Proof. exact summary_meets. Qed.
