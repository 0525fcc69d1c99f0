(** The figures that csn-bench prints (C109).  Statements only. *)
From Verif Require Import Base Lib Utils Log Sha Chunker SpecChunker Bench SpecBench SpecClosing Closing Rate SpecRate PfRate PfRate2 Toy Ex1 Ex2 Ex4 Ex6 Ex12 Ex43.
Local Open Scope N_scope.

(** The line about a round: binary64 arithmetic does not spoil the two decimals. *)
Theorem C109_line count sz ms : 0 < count -> 0 < sz -> count * sz < 2 ^ 63 -> 0 < ms < 2 ^ 63 -> exists h, bench_line count sz ms = bench_text count ms h /\ rate_of (count * sz) ms h.
Proof. exact (rate_text count sz ms). Qed.
Print Assumptions C109_line.
Example C109_line_met : 0 < 200 /\ 0 < 262144 /\ 200 * 262144 < 2 ^ 63 /\ 0 < 10500 < 2 ^ 63 /\ rate_of (200 * 262144) 10500 476 /\ ~ rate_of (200 * 262144) 10500 477.
Proof. repeat split; try reflexivity; vm_compute; try discriminate. intros H. exact (H eq_refl). Qed.

(** The chunk benchmark: one buffer of 1 MiB for each reading of the clock up to the first at which ten seconds have passed. *)
Theorem C109_chunker E start clocks r : readings (start :: clocks) -> N.of_nat (length clocks) < 2 ^ 40 -> bench_chunker E true (start :: clocks) = Ok r ->
  exists k ms h, round_of start clocks k ms /\ rate_of (N.of_nat (S k) * 1048576) ms h /\
    chunker_lines r = bs "chunking 1048576 bytes for about 10 seconds... " ++ bench_text (N.of_nat (S k)) ms h.
Proof. exact (chunker_report E start clocks r). Qed.
Print Assumptions C109_chunker.
Example C109_chunker_met : (readings (t0 :: ticks) /\ N.of_nat (length ticks) < 2 ^ 40) /\ exists r, bench_chunker toy0 true (t0 :: ticks) = Ok r.
Proof. exact (conj readings43 chunked43). Qed.

(** The hash benchmark: three rounds with blocks of 256, 64 and 16 KiB. *)
Theorem C109_hash E driver clocks w l w' : readings clocks -> N.of_nat (length clocks) < 2 ^ 34 -> bench_hash E driver clocks w = (Ok (Some l), w') ->
  hash_report 3 262144 clocks (hash_lines 262144 l).
Proof. exact (hash_reported E driver clocks w l w'). Qed.
Print Assumptions C109_hash.
Example C109_hash_met : (readings c43 /\ N.of_nat (length c43) < 2 ^ 34) /\ exists w', bench_hash toy0 false c43 w_run = (Ok (Some l43), w').
Proof. exact (conj c43_ok hashed43). Qed.
Example C109_hash_text : hash_lines 262144 l43 =
  bs "hashing 262144 byte blocks for about 10 seconds... 200 iterations in 10500 ms -> 4.76 MiB/s" ++ NL ++
  bs "hashing 65536 byte blocks for about 10 seconds... 100 iterations in 9400 ms -> 0.66 MiB/s" ++ NL ++
  bs "hashing 16384 byte blocks for about 10 seconds... 100 iterations in 10000 ms -> 0.16 MiB/s" ++ NL.
Proof. exact text43. Qed.
