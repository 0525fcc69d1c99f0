(** Properties C10, C45, C46, C47 (patchdd) and C50.  Statements only. *)
From Verif Require Import Base Lib SpecBasic SpecEnv Utils Caibx Chain Ui MainProg Patchdd SpecCaibx SpecRun SpecOrder SpecPatch
  PfUnique PfPatch PfUi PfUi2 Toy Ex2 Ex4 Ex6 Ex7.
Local Open Scope N_scope.

(** ** C10: with the target as k-th store, no chunk is asked for twice of any store behind it. *)
Theorem C10_asked_once E argv w k : sane E argv w -> error_free (w_io w) -> ~ In false (w_alloc w) ->
  nth_error (cmd_stores argv) k = Some (cmd_target argv) ->
  exists tr, run_trace w (snd (main E argv w)) tr /\ NoDup (asked_after k tr).
Proof. exact (asked_once E argv w k). Qed.
Print Assumptions C10_asked_once.
(** Three entries, the third repeats the first: three writes, two requests. *)
Example C10_meets : sane toy0 csn_ts (run_world l_twice []) /\ error_free (w_io (run_world l_twice [])) /\ ~ In false (w_alloc (run_world l_twice [])) /\
  nth_error (cmd_stores csn_ts) 0 = Some (cmd_target csn_ts) /\
  exists w', main toy0 csn_ts (run_world l_twice []) = (Ok 0, w') /\ asked_ids w' = [id2; id1] /\ count is_put w' = 3%nat.
Proof. exact once_run. Qed.

(** ** C45 *)
Theorem C45_patched E argv w w' : patchdd_main E argv w = (Ok 0, w') ->
  exists src dst, src_of E argv = Some src /\ dst_of E argv = Some dst /\ let s := w_files w src in let d := w_files w dst in
    blen s <= blen d /\ w_files w' dst = patched s d /\ (forall j, j <> dst -> w_files w' j = w_files w j) /\
    exists tr, run_trace w w' tr /\ forall g, survives dst (rev tr) d g -> g = patched s d.
Proof. exact (patchdd_success E argv w w'). Qed.
Print Assumptions C45_patched.
Theorem C45_refuses E argv w src dst : src_of E argv = Some src -> dst_of E argv = Some dst -> blen (w_files w dst) < blen (w_files w src) ->
  exists w', patchdd_main E argv w = (Ok 1, w') /\ (forall j, w_files w' j = w_files w j) /\ w_trace w' = w_trace w.
Proof. exact (patchdd_refuses E argv w src dst). Qed.
Print Assumptions C45_refuses.
Theorem C45_succeeds E argv w src dst : ~ asks_usage argv -> src_of E argv = Some src -> dst_of E argv = Some dst ->
  e_kind E src <> KOther -> e_kind E dst <> KOther -> blen (w_files w src) <= blen (w_files w dst) < OFF_LIMIT ->
  Forall (fun e => exists k, e = IoN k) (w_io w) -> (3 * length (w_files w src) < length (w_io w))%nat ->
  fst (patchdd_main E argv w) = Ok 0.
Proof. exact (patchdd_succeeds E argv w src dst). Qed.
Print Assumptions C45_succeeds.
Example C45_meets : let w := pd_world io_good s5 d7 in ~ asks_usage pd /\ src_of toy0 pd = Some 115%nat /\ dst_of toy0 pd = Some 116%nat /\
  e_kind toy0 115 <> KOther /\ e_kind toy0 116 <> KOther /\ blen (w_files w 115%nat) <= blen (w_files w 116%nat) < OFF_LIMIT /\
  Forall (fun e => exists k, e = IoN k) (w_io w) /\ (3 * length (w_files w 115%nat) < length (w_io w))%nat.
Proof. exact pd_meets. Qed.
Example C45_runs : let r := patchdd_main toy0 pd (pd_world io_good s5 d7) in
  (fst r, w_files (snd r) 116%nat, w_trace (snd r)) = (Ok 0, bs "abcdefg", [TSync 116; TWrite 116 2 (bs "cde")]).
Proof. exact pd_good. Qed.
Example C45_small : let r := patchdd_main toy0 pd (pd_world io_good s5 (bs "abcd")) in
  (fst r, w_files (snd r) 116%nat, w_trace (snd r)) = (Ok 1, bs "abcd", []).
Proof. exact pd_small. Qed.

(** ** C46 *)
Theorem C46_any_stop E argv w : let w' := snd (patchdd_main E argv w) in
  fst (patchdd_main E argv w) <> UB /\ (forall j, dst_of E argv <> Some j -> w_files w' j = w_files w j) /\
  forall src dst, src_of E argv = Some src -> dst_of E argv = Some dst -> let s := w_files w src in let d := w_files w dst in
    mixed s d (w_files w' dst) /\ exists tr, run_trace w w' tr /\ block_writes s d dst tr.
Proof. exact (patchdd_stop E argv w). Qed.
Print Assumptions C46_any_stop.
Theorem C46_rerun E argv w src dst w2 w3 : src_of E argv = Some src -> dst_of E argv = Some dst ->
  let w1 := snd (patchdd_main E argv w) in
  (forall j, w_files w2 j = w_files w1 j) -> patchdd_main E argv w2 = (Ok 0, w3) ->
  w_files w3 dst = patched (w_files w src) (w_files w dst).
Proof. exact (patchdd_rerun E argv w src dst w2 w3). Qed.
Print Assumptions C46_rerun.
(** Stopped in the middle of a write, then run again. *)
Example C46_cut : let r := patchdd_main toy0 pd (pd_world io_cut s5 d7) in
  (fst r, w_files (snd r) 116%nat, w_trace (snd r)) = (Halt, bs "abcdYfg", [TWrite 116 2 (bs "cd")]).
Proof. exact pd_cut. Qed.
Example C46_again : let r := patchdd_main toy0 pd (pd_world io_good s5 (bs "abcdYfg")) in
  (fst r, w_files (snd r) 116%nat, w_trace (snd r)) = (Ok 0, bs "abcdefg", [TSync 116; TWrite 116 4 (bs "e")]).
Proof. exact pd_again. Qed.

(** ** C50 *)
Theorem C50_display E argv w ino p n : sane E argv w -> e_open E (cmd_index argv) = Some ino -> valid_index (w_files w ino) p n -> n <= 42949672 ->
  exists tr, run_trace w (snd (main E argv w)) tr /\ good_display (N.to_nat n) (shown tr) /\ (e_interactive E = false -> shown tr = []) /\
    (fst (main E argv w) = Ok 0 -> e_interactive E = true -> good_index E argv w -> length (shown tr) = N.to_nat n).
Proof. exact (display_run E argv w ino p n). Qed.
Print Assumptions C50_display.
Example C50_meets : sane tty csn_s w_run /\ good_index tty csn_s w_run /\ e_open tty (cmd_index csn_s) = Some 105%nat /\ valid_index (w_files w_run 105%nat) p_ex 4 /\
  exists w', main tty csn_s w_run = (Ok 0, w') /\ shown (w_trace w') = [25; 50; 75; 100].
Proof. exact tty_run. Qed.
Theorem C50_patchdd_display E argv w src : src_of E argv = Some src -> let size := blen (w_files w src) in size <= 184467440737095516 ->
  exists tr, run_trace w (snd (patchdd_main E argv w)) tr /\ good_display (N.to_nat (blocks size)) (shown tr) /\ (e_interactive E = false -> shown tr = []) /\
    (fst (patchdd_main E argv w) = Ok 0 -> e_interactive E = true -> length (shown tr) = N.to_nat (blocks size)).
Proof. exact (patchdd_display E argv w src). Qed.
Print Assumptions C50_patchdd_display.
Example C50_patchdd_meets : let r := patchdd_main tty pd (pd_world io_good s5 d7) in (fst r, shown (w_trace (snd r)), blocks (blen s5)) = (Ok 0, [100], 1).
Proof. exact pd_shown. Qed.
(** The bar has its 60 columns for any value of the argument, a uint8_t. *)
Theorem C50_bar p : p < 256 -> bar_of p (progress_bar p).
Proof. exact (progress_bar_spec p). Qed.
Print Assumptions C50_bar.
Example C50_bar_meets : bar_of 50 (repeat 61 30 ++ repeat 32 30).
Proof. exact (progress_bar_spec 50 eq_refl). Qed.
(** One entry more than 42949672 is too many: the last step goes back from 99 to 0. *)
Theorem C50_bound_is_tight : exists h n, n = 42949673 /\ h < n /\ main_percent h n = 99 /\ main_percent (h + 1) n = 0 /\ h + 1 = n.
Proof. exact percent_overflow. Qed.
Print Assumptions C50_bound_is_tight.
