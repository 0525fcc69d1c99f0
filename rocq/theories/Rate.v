(** Model of the lines that csn-bench prints about its rounds (csn-bench.c:50, 67-69, 99, 129-131). *)
From Coq Require Import Floats.SpecFloat.
From Verif Require Import Base Utils Ui Log Discr Bench Closing.
Local Open Scope N_scope.

(** csn-bench.c:68, 130: (double)count * buf_sz / (delta / 1000.0) / 1024.0 / 1024.0 *)
Definition bench_rate (count buf_sz delta : N) : spec_float :=
  let d := SFdiv fprec femax in
  d (d (d (SFmul fprec femax (f_of_N count) (f_of_N buf_sz)) (d (f_of_N delta) (f_of_N 1000))) (f_of_N 1024)) (f_of_N 1024).
(** csn-bench.c:69, 131 *)
Definition bench_line (count buf_sz delta : N) : bytes :=
  digits 10 count ++ bs " iterations in " ++ digits 10 delta ++ bs " ms -> " ++ fixed2 (bench_rate count buf_sz delta) ++ bs " MiB/s" ++ NL.
(** csn-bench.c:99, 129-131: what the chunk benchmark prints when it is done *)
Definition chunker_lines (r : chunk_bench) : bytes :=
  bs "chunking " ++ digits 10 1048576 ++ bs " bytes for about 10 seconds... " ++ bench_line (cb_count r) 1048576 (cb_ms r).
(** csn-bench.c:47-72: what the hash benchmark prints; the size is divided by four after each round *)
Fixpoint hash_lines (buf_sz : N) (l : list (N * N)) : bytes :=
  match l with
  | [] => []
  | (count, delta) :: l => bs "hashing " ++ digits 10 buf_sz ++ bs " byte blocks for about 10 seconds... " ++ bench_line count buf_sz delta ++ hash_lines (buf_sz / 4) l
  end.
