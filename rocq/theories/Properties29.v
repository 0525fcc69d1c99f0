(** C95: what the terminal shows. *)
From Verif Require Import Base SpecBasic SpecEnv Utils Ui MainProg Patchdd SpecCaibx SpecMain SpecRun SpecPatch SpecTerm PfUi PfTerm Ex1 Ex2 Ex3 Ex4 Ex5 Ex6 Ex7.
Local Open Scope N_scope.

(** ** C95: the progress display is one line, rewritten in place and ended at 100 percent.
    After any run, interrupted or not, the terminal that has been given everything that was printed shows the line for the last
    percentage and nothing of the earlier ones; the line is ended if that was 100.  A successful run has ended it. *)
Theorem C95_screen E argv w ino p n : sane E argv w -> e_open E (cmd_index argv) = Some ino -> valid_index (w_files w ino) p n -> n <= 42949672 ->
  exists tr, run_trace w (snd (main E argv w)) tr /\ screen_shows (type_in fresh (printed 0 (shown tr))) (shown tr) /\
    (fst (main E argv w) = Ok 0 -> e_interactive E = true -> good_index E argv w -> 0 < n -> exists line c, progress_line c 100 line /\ tm_done (type_in fresh (printed 0 (shown tr))) = [line]).
Proof. exact (screen_run E argv w ino p n). Qed.
Print Assumptions C95_screen.
Theorem C95_patchdd E argv w src : src_of E argv = Some src -> let size := blen (w_files w src) in size <= 184467440737095516 ->
  exists tr, run_trace w (snd (patchdd_main E argv w)) tr /\ screen_shows (type_in fresh (printed 0 (shown tr))) (shown tr) /\
    (fst (patchdd_main E argv w) = Ok 0 -> e_interactive E = true -> 0 < size -> exists line c, progress_line c 100 line /\ tm_done (type_in fresh (printed 0 (shown tr))) = [line]).
Proof. exact (screen_patchdd E argv w src). Qed.
Print Assumptions C95_patchdd.
(** The line for a percentage is as long for all of them, so that it covers the one before. *)
Theorem C95_width c p t : In c spin_chars -> progress_line c p t -> length t = 71%nat.
Proof. exact (fun A B => proj1 (line_width c p t A B)). Qed.
Print Assumptions C95_width.
(** The character in front should move with every step.  It stands still in every fifth step (the characters are "-\|//"). *)
Theorem C95_spinner p q s : p < 256 -> p <> 100 -> q < 256 -> q <> 100 -> s < 4294967295 -> (spin_of p s = spin_of q (snd (show_progress p s)) <-> s mod 5 = 3).
Proof. exact (spin_same p q s). Qed.
Print Assumptions C95_spinner.
Theorem C95_refuted : exists p s, p < 100 /\ s < 2 ^ 32 /\ spin_of p s = spin_of p (snd (show_progress p s)).
Proof. exact spin_repeats. Qed.
Print Assumptions C95_refuted.

(** A run with four steps, and what is on the screen after two and four steps of it. *)
Example C95_meets : sane tty csn_s w_run /\ good_index tty csn_s w_run /\ e_open tty (cmd_index csn_s) = Some 105%nat /\ valid_index (w_files w_run 105%nat) p_ex 4 /\
  exists w', main tty csn_s w_run = (Ok 0, w') /\ shown (w_trace w') = [25; 50; 75; 100].
Proof. exact tty_run. Qed.
Example C95_meets_screen : tm_line (type_in fresh (printed 0 [25; 50])) = bs "[\] |" ++ repeat 61 30 ++ repeat 32 30 ++ bs "|  50%" /\
  tm_done (type_in fresh (printed 0 [25; 50; 75; 100])) = [bs "[/] |" ++ repeat 61 60 ++ bs "| 100%"].
Proof. vm_compute. auto. Qed.
