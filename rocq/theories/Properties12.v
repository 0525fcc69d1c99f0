(** Properties C56-C62: log.c and csn-bench.  Statements only. *)
From Verif Require Import Base Lib Utils Log SpecLog LogSites Chunker SpecChunker Bench SpecBench PfLog PfLog2 PfBench Toy Ex2 Ex4 Ex6 Ex12.
Local Open Scope N_scope.

(** ** C56: messages *)
(** A message that fits is printed completely, whatever its arguments. *)
Theorem C56_complete tty loglevel level line path func format :
  level <= 3 -> line < 2147483648 -> level <= loglevel -> percent_free (log_file path) -> percent_free func ->
  forall args text, printf format args = Some text -> (length (header tty level (log_file path) func line ++ format ++ trailer tty) <= 127)%nat ->
  u_log tty loglevel level path func line format args = Some (header tty level (log_file path) func line ++ text ++ trailer tty).
Proof. exact (message_complete tty loglevel level line path func format). Qed.
Print Assumptions C56_complete.
Theorem C56_file path : is_basename path (log_file path) /\ forall f, is_basename path f -> f = log_file path.
Proof. exact (conj (log_file_spec path) (fun f H => basename_unique path f (log_file path) H (log_file_spec path))). Qed.
Print Assumptions C56_file.
(** None of the calls in the program has undefined behaviour if its arguments match its format. *)
Theorem C56_calls_defined s tty loglevel path args text :
  In s sites -> is_basename path (s_file s) -> printf (s_fmt s) args = Some text -> exists out, log_at s tty loglevel path args = Some out.
Proof. exact (site_defined s tty loglevel path args text). Qed.
Print Assumptions C56_calls_defined.
(** All but one print their message completely. *)
Theorem C56_calls_complete s tty loglevel path args text :
  In s sites -> s_fmt s <> long_fmt -> is_basename path (s_file s) -> s_level s <= loglevel -> printf (s_fmt s) args = Some text ->
  log_at s tty loglevel path args = Some (full_message s tty text).
Proof. exact (site_complete s tty loglevel path args text). Qed.
Print Assumptions C56_calls_complete.
Example C56_met : In site_type sites /\ s_fmt site_type <> long_fmt /\ is_basename (bs "/src/utils.c") (s_file site_type) /\ printf (s_fmt site_type) [AInt 8192] = Some (bs "unsupported file type: 020000").
Proof. exact (conj site_type_in (conj site_type_fmt (conj site_type_base site_type_text))). Qed.
(** The exception: the message about the parameters of a side-loaded index is cut (store-local.c:70). *)
Theorem C56_cut_refuted : exists s path args text, In s sites /\ is_basename path (s_file s) /\ printf (s_fmt s) args = Some text /\
  exists out, log_at s false U_LOG_INFO path args = Some out /\ Some out <> Some (full_message s false text).
Proof. exact (ex_intro _ _ (ex_intro _ _ (ex_intro _ _ (ex_intro _ _ (conj site_long_in (conj long_base (conj long_text (ex_intro _ _ (conj long_cut long_differs))))))))). Qed.
Print Assumptions C56_cut_refuted.
(** A longer format may be cut within a conversion. *)
Theorem C56_long_format_refuted : exists format args text, printf format args = Some text /\ u_log false U_LOG_INFO U_LOG_ERR (bs "a.c") (bs "f") 1 format args = None.
Proof. exact (ex_intro _ _ (ex_intro _ _ (ex_intro _ _ (conj split_text split_undefined)))). Qed.
Print Assumptions C56_long_format_refuted.

(** ** C57: log levels *)
Theorem C57_selected tty getenv level : selected getenv level -> u_log_init tty getenv = (level, Some []).
Proof. exact (init_selected tty getenv level). Qed.
Print Assumptions C57_selected.
Theorem C57_unknown tty s : (forall level, ~ selected (Some s) level) ->
  u_log_init tty (Some s) = (U_LOG_INFO, Some (header tty U_LOG_WARN (bs "log.c") (bs "u_log_init") 33 ++ (bs "unknown loglevel '" ++ s ++ bs "'") ++ trailer tty)).
Proof. exact (init_unknown tty s). Qed.
Print Assumptions C57_unknown.
Theorem C57_hidden tty loglevel level path func line format args : loglevel < level -> u_log tty loglevel level path func line format args = Some [].
Proof. exact (message_hidden tty loglevel level path func line format args). Qed.
Print Assumptions C57_hidden.
Example C57_met : selected (Some (bs "warning")) U_LOG_WARN /\ (forall level, ~ selected (Some (bs "loud")) level) /\ U_LOG_INFO < U_LOG_DEBUG.
Proof. split; [cbn; tauto|]. split; [cbn; intros level H; intuition discriminate|reflexivity]. Qed.

(** ** C58: hex dumps *)
Theorem C58_rows data : bytes_ok data -> data <> [] -> hexdump data = Some (rows (n_rows data) 0 data).
Proof. exact (hexdump_rows data). Qed.
Print Assumptions C58_rows.
(** the numbers printed denote the numbers meant *)
Theorem C58_numerals base n : 2 <= base <= 16 -> n < SIZE_MOD -> numeral_val base (digits base n) = n.
Proof. exact (digits_val base n). Qed.
Print Assumptions C58_numerals.
Example C58_met : bytes_ok dump_data /\ dump_data <> []. Proof. exact dump_ok. Qed.
Theorem C58_empty_refuted : exists data, bytes_ok data /\ hexdump data = None.
Proof. exact (ex_intro _ [] (conj (Forall_nil _) hexdump_nothing)). Qed.
Print Assumptions C58_empty_refuted.

(** ** C59: the chunk benchmark *)
Theorem C59_chunks E p D sz start clocks : disc_of p D -> (sz mod 4 = 0)%nat -> clock_ok start ->
  Forall (fun t => clock_ok t /\ (tv_sec t - tv_sec start < 18446744073709551)%Z) clocks -> Exists (fun t => time_up start t = true) clocks ->
  exists r, bench_chunker_with E sz p true (start :: clocks) = Ok r /\
    0 < cb_count r /\ length (cb_bufs r) = N.to_nat (cb_count r) /\ Forall (fun b => length b = sz) (cb_bufs r) /\
    concat (cb_bufs r) = stream (N.to_nat (cb_count r) * (sz / 4)) (iterate xorshift32 (sz / 4) SEED) /\
    finished_chunks E p D (concat (cb_bufs r)) (cb_ids r) /\ 9000 <= cb_ms r.
Proof. exact (bench_chunks E p D sz start clocks). Qed.
Print Assumptions C59_chunks.
(** with the sizes the program uses *)
Theorem C59_actual E start clocks : clock_ok start ->
  Forall (fun t => clock_ok t /\ (tv_sec t - tv_sec start < 18446744073709551)%Z) clocks -> Exists (fun t => time_up start t = true) clocks ->
  exists r, bench_chunker E true (start :: clocks) = Ok r /\ 0 < cb_count r /\ finished_chunks E bench_params default_disc (concat (cb_bufs r)) (cb_ids r) /\ 9000 <= cb_ms r.
Proof. exact (bench_actual E start clocks). Qed.
Print Assumptions C59_actual.
Example C59_met : disc_of p_ex 45 /\ clock_ok t0 /\ Forall (fun t => clock_ok t /\ (tv_sec t - tv_sec t0 < 18446744073709551)%Z) ticks /\ Exists (fun t => time_up t0 t = true) ticks.
Proof. exact (conj toy_disc (conj t0_ok (conj ticks_ok ticks_up))). Qed.
Example C59_run : exists r, bench_chunker_with toy0 512 p_ex true (t0 :: ticks) = Ok r /\ cb_count r = 3 /\ cb_ms r = 9101 /\ (10 <=? length (cb_ids r))%nat = true.
Proof. exact bench_run. Qed.
Theorem C59_unallocated_refuted : exists E clocks, bench_chunker E false clocks = UB.
Proof. exact (ex_intro _ toy0 (ex_intro _ [] eq_refl)). Qed.
Print Assumptions C59_unallocated_refuted.

(** ** C60: times and hashing rates *)
Theorem C60_time s e : clock_ok s -> clock_ok e -> (0 <= elapsed_ns s e)%Z -> (tv_sec e - tv_sec s < 18446744073709551)%Z ->
  (Z.abs (1000000 * Z.of_N (time_delta_ms s e) - elapsed_ns s e) < 1000000)%Z.
Proof. exact (delta_close s e). Qed.
Print Assumptions C60_time.
Theorem C60_hash E driver clocks w : all_close clocks ->
  match fst (bench_hash E driver clocks w) with
  | Ok None => driver = true /\ e_kcapi_ok E = false \/ exists a, w_alloc w = false :: a
  | Ok (Some l) => length l = 3%nat /\ Forall (fun r => (exists k, fst r = 100 * k /\ 0 < k) /\ 9000 <= snd r) l
  | Halt => True
  | _ => False
  end.
Proof. exact (bench_hash_ok E driver clocks w). Qed.
Print Assumptions C60_hash.
Example C60_met : clock_ok t0 /\ all_close (t0 :: ticks). Proof. exact (conj t0_ok three_clocks). Qed.

(** ** C61: the generator *)
Theorem C61_permutation a b : a < M32 -> b < M32 -> xorshift32 a < M32 /\ (xorshift32 a = xorshift32 b -> a = b).
Proof. exact (fun Ha Hb => conj (xorshift_lt a Ha) (xorshift_inj a b Ha Hb)). Qed.
Print Assumptions C61_permutation.
Theorem C61_never_zero n : iterate xorshift32 n SEED <> 0.
Proof. exact (seed_run n). Qed.
Print Assumptions C61_never_zero.

(** ** C62: command line of csn-bench *)
Theorem C62_known prog rest : bench_main (prog :: bs "hash" :: rest) = BHash /\ bench_main (prog :: bs "chunker" :: rest) = BChunker /\ bench_main [prog] = BUsage 1.
Proof. exact (conj eq_refl (conj eq_refl eq_refl)). Qed.
Print Assumptions C62_known.
(** Each benchmark is run for its name only; every other argument prints the usage and succeeds. *)
Theorem C62_which prog a rest : (bench_main (prog :: a :: rest) = BHash <-> a = bs "hash") /\ (bench_main (prog :: a :: rest) = BChunker <-> a = bs "chunker") /\
  (a <> bs "hash" -> a <> bs "chunker" -> bench_main (prog :: a :: rest) = BUsage 0).
Proof. exact (bench_which prog a rest). Qed.
Print Assumptions C62_which.
Theorem C62_unknown_refuted : exists argv, bench_main argv = BUsage 0 /\ argv = [bs "csn-bench"; bs "hsah"].
Proof. exact (ex_intro _ [bs "csn-bench"; bs "hsah"] (conj eq_refl eq_refl)). Qed.
Print Assumptions C62_unknown_refuted.
