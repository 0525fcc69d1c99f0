(** Witnesses for Properties7.v. *)
From Verif Require Import Base Lib SpecBasic SpecEnv Utils Discr Chunker Caibx Index StoreLocal Target StoreHttp Chain Ui MainProg Patchdd SpecChunker SpecCaibx SpecStore SpecHttp SpecMain SpecRun SpecOrder SpecPatch
  PfUtils PfBasic PfIO PfKeyspec PfCaibx PfCaibx2 PfSync PfPatch PfUi Toy Ex1 Ex2 Ex4 Ex6.
Local Open Scope N_scope.

(** C10 *)
Definition asked_ids (w : world) : list bytes := map snd (asked_after 0 (w_trace w)).
Lemma twice_result : let r := main toy0 csn_ts (run_world l_twice []) in (fst r, asked_ids (snd r), count is_put (snd r)) = (Ok 0, [id2; id1], 3%nat).
Proof. vm_compute. reflexivity. Qed.
Lemma once_run : sane toy0 csn_ts (run_world l_twice []) /\ error_free (w_io (run_world l_twice [])) /\ ~ In false (w_alloc (run_world l_twice [])) /\
  nth_error (cmd_stores csn_ts) 0 = Some (cmd_target csn_ts) /\
  exists w', main toy0 csn_ts (run_world l_twice []) = (Ok 0, w') /\ asked_ids w' = [id2; id1] /\ count is_put w' = 3%nat.
Proof.
  split; [apply serve_fine|]. split; [apply toy_world_quiet|]. split; [intros []|]. split; [reflexivity|].
  pose proof twice_result as R. cbv zeta in R. destruct (main toy0 csn_ts (run_world l_twice [])) as [c w']. cbn [fst snd] in R. injection R as -> R1 R2. eauto.
Qed.

(** C45, C46: patchdd with a source of five bytes, a destination of seven. *)
Definition pd : list bytes := [bs "patchdd"; bs "s"; bs "t"].
Definition pd_world (io : list ioev) (s d : bytes) : world := mkWorld (files_of [(115%nat, s); (116%nat, d)]) io [] false [] 0 [].
Definition s5 : bytes := bs "abcde".
Definition d7 : bytes := bs "abXdYfg".
Definition io_good : list ioev := repeat (IoN 1000) 20.
(** two bytes are written, then the machine stops *)
Definition io_cut : list ioev := [IoN 3; IoIntr; IoN 1000; IoN 1000; IoN 1].
Lemma pd_good : let r := patchdd_main toy0 pd (pd_world io_good s5 d7) in
  (fst r, w_files (snd r) 116%nat, w_trace (snd r)) = (Ok 0, bs "abcdefg", [TSync 116; TWrite 116 2 (bs "cde")]).
Proof. vm_compute. reflexivity. Qed.
Lemma pd_cut : let r := patchdd_main toy0 pd (pd_world io_cut s5 d7) in
  (fst r, w_files (snd r) 116%nat, w_trace (snd r)) = (Halt, bs "abcdYfg", [TWrite 116 2 (bs "cd")]).
Proof. vm_compute. reflexivity. Qed.
Lemma pd_again : let r := patchdd_main toy0 pd (pd_world io_good s5 (bs "abcdYfg")) in
  (fst r, w_files (snd r) 116%nat, w_trace (snd r)) = (Ok 0, bs "abcdefg", [TSync 116; TWrite 116 4 (bs "e")]).
Proof. vm_compute. reflexivity. Qed.
Lemma pd_small : let r := patchdd_main toy0 pd (pd_world io_good s5 (bs "abcd")) in
  (fst r, w_files (snd r) 116%nat, w_trace (snd r)) = (Ok 1, bs "abcd", []).
Proof. vm_compute. reflexivity. Qed.
Lemma pd_meets : let w := pd_world io_good s5 d7 in ~ asks_usage pd /\ src_of toy0 pd = Some 115%nat /\ dst_of toy0 pd = Some 116%nat /\
  e_kind toy0 115 <> KOther /\ e_kind toy0 116 <> KOther /\ blen (w_files w 115%nat) <= blen (w_files w 116%nat) < OFF_LIMIT /\
  Forall (fun e => exists k, e = IoN k) (w_io w) /\ (3 * length (w_files w 115%nat) < length (w_io w))%nat.
Proof.
  cbv zeta. split; [intros [X|[X|X]]; [cbn in X; lia|discriminate X|discriminate X]|]. do 2 (split; [reflexivity|]). do 2 (split; [discriminate|]).
  split; [split; [vm_compute; discriminate|vm_compute; reflexivity]|]. split; [|vm_compute; lia].
  apply Forall_forall. intros e He. apply repeat_spec in He. eauto.
Qed.

(** C50: the same with a terminal *)
Definition tty : env := mkEnv (e_H toy0) (e_qsort toy0) (e_bsearch toy0) (e_zstep toy0) (e_server toy0) (e_open toy0) (e_open_rw toy0) (e_kind toy0) (e_getenv toy0) (e_kcapi_ok toy0) (e_http_ok toy0) true.
Lemma tty_result : let r := main tty csn_s w_run in (fst r, shown (w_trace (snd r))) = (Ok 0, [25; 50; 75; 100]).
Proof. vm_compute. reflexivity. Qed.
Lemma tty_sane : sane tty csn_s w_run. Proof. destruct run_sane. constructor; assumption. Qed.
Lemma tty_good : good_index tty csn_s w_run. Proof. exact run_good. Qed.
Lemma tty_run : sane tty csn_s w_run /\ good_index tty csn_s w_run /\ e_open tty (cmd_index csn_s) = Some 105%nat /\ valid_index (w_files w_run 105%nat) p_ex 4 /\
  exists w', main tty csn_s w_run = (Ok 0, w') /\ shown (w_trace w') = [25; 50; 75; 100].
Proof.
  split; [exact tty_sane|]. split; [exact tty_good|]. split; [reflexivity|]. split; [apply run_resumes|].
  pose proof tty_result as R. cbv zeta in R. destruct (main tty csn_s w_run) as [c w']. cbn [fst snd] in R. injection R as -> R1. eauto.
Qed.
Lemma pd_shown : let r := patchdd_main tty pd (pd_world io_good s5 d7) in (fst r, shown (w_trace (snd r)), blocks (blen s5)) = (Ok 0, [100], 1).
Proof. vm_compute. reflexivity. Qed.
Lemma percent_overflow : exists h n, n = 42949673 /\ h < n /\ main_percent h n = 99 /\ main_percent (h + 1) n = 0 /\ h + 1 = n.
Proof. exists 42949672, 42949673. vm_compute. auto. Qed.
