(** What csn and patchdd say about a run (C100). *)
From Verif Require Import Base Log SpecLog LogSites Patchdd SpecPatch Bench SpecBench SpecClosing Closing PfClosing PfClosing2 Toy Ex1 Ex7 Ex34.
Local Open Scope N_scope.

(** csn: [t0], [t1] and [t2] are the times of the start, of the end of the initialisation and of the end of the synchronisation.
    The seconds that are logged are off by less than one, also taken together, and the messages are complete. *)
Theorem C100_csn t0 t1 t2 skipped tty loglevel path : clock_ok t0 -> clock_ok t1 -> clock_ok t2 -> not_before t0 t1 -> not_before t1 t2 -> (tv_sec t2 - tv_sec t0 < 4294967296)%Z ->
  is_basename path (bs "main.c") -> U_LOG_INFO <= loglevel ->
  exists n1 n2, about n1 t0 t1 /\ about n2 t1 t2 /\ about (n1 + n2) t0 t2 /\
    map (fun l => log_at (fst l) tty loglevel path (snd l)) (run_lines t0 t1 t2 skipped) =
    map (fun l => Some (full_message (fst (fst l)) tty (snd l))) (combine (run_lines t0 t1 t2 skipped) (run_texts n1 n2 skipped)).
Proof. exact (csn_closing t0 t1 t2 skipped tty loglevel path). Qed.
Print Assumptions C100_csn.
(** patchdd: the bytes it skipped are those at the fronts of blocks that were there already, all of them exactly if the destination began with
    the source, and the percentage is right to the digits printed and at most 100.00. *)
Theorem C100_patchdd E argv w w' t0 t1 : patchdd_main E argv w = (Ok 0, w') -> clock_ok t0 -> clock_ok t1 -> not_before t0 t1 -> (tv_sec t1 - tv_sec t0 < 4294967296)%Z ->
  exists src dst, src_of E argv = Some src /\ dst_of E argv = Some dst /\ let s := w_files w src in let d := w_files w dst in
    (0 < blen s < 9223372036854775808 -> exists sk h n, patchdd_run E argv w = (Ok (0, Some (sk, blen s)), w') /\
      patchdd_lines t0 t1 sk (blen s) = patchdd_text n sk h /\ about n t0 t1 /\ kept s d 0 sk /\ (sk = blen s <-> firstn (length s) d = s) /\ share_of sk (blen s) h).
Proof. exact (patchdd_closing E argv w w' t0 t1). Qed.
Print Assumptions C100_patchdd.
(** The run with the numbers is the run of C45 and C46. *)
Theorem C100_same E argv w : patchdd_main E argv w = fst_of (patchdd_run E argv w).
Proof. exact (run_status E argv w). Qed.
Print Assumptions C100_same.
(** With an empty source, patchdd divides zero by zero and prints no number. *)
Theorem C100_empty_refuted : exists E argv w w' t0 t1, patchdd_run E argv w = (Ok (0, Some (0, 0)), w') /\
  patchdd_lines t0 t1 0 0 = bs "synchronization finished after 3 seconds" ++ NL ++ bs "skipped a total of 0 bytes (nan% of the input)" ++ NL.
Proof. exact empty34. Qed.
Print Assumptions C100_empty_refuted.

(** Two of five bytes are there; the clock goes from 5.999999999 to 8 and to 20.5. *)
Example C100_run : exists w', patchdd_main toy0 pd w34 = (Ok 0, w') /\ fst (patchdd_run toy0 pd w34) = Ok (0, Some (2, 5)).
Proof. exact run34. Qed.
Example C100_clocks : clock_ok t34 /\ clock_ok t34' /\ clock_ok t34'' /\ not_before t34 t34' /\ not_before t34' t34'' /\ (tv_sec t34'' - tv_sec t34 < 4294967296)%Z /\ (tv_sec t34' - tv_sec t34 < 4294967296)%Z.
Proof. exact clocks34. Qed.
Example C100_text : patchdd_lines t34 t34' 2 5 = bs "synchronization finished after 3 seconds" ++ NL ++ bs "skipped a total of 2 bytes (40.00% of the input)" ++ NL /\ patchdd_text 3 2 4000 = patchdd_lines t34 t34' 2 5.
Proof. exact text34. Qed.
Example C100_lines : map (fun l => printf (s_fmt (fst l)) (snd l)) (run_lines t34 t34' t34'' 7) =
  [Some (bs "init finished after 3 seconds"); Some (bs "starting synchronization"); Some (bs "synchronization finished after 12 seconds"); Some (bs "skipped prefix of 7 chunks")].
Proof. exact lines34. Qed.
