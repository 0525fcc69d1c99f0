(** Properties C75-C78: runs that follow one another, the casync front end, runs that cannot start.  Statements only. *)
From Verif Require Import Base Utils Caibx MainProg SpecBasic SpecEnv SpecCaibx SpecMain SpecRun SpecMemory SpecProgress SpecCasync
  PfProgress PfAgain PfCasync Toy Ex2 Ex4 Ex6 Ex16.
Local Open Scope N_scope.

(** ** C75: interrupted runs get on *)
(** Any number of runs towards one image, with whatever command lines, stores and servers, each on what its predecessor left in the
    target and each stopped anywhere: beyond what one complete run would do, every run that did not succeed repeats at most one chunk. *)
Theorem C75_total_work h f g trs stops g' p n : restarts h f g trs stops g' ->
  valid_index f p n -> well_formed f (N.to_nat n) -> usual_chunks f (N.to_nat n) ->
  total put_ev (concat trs) <= n + stops /\ total put_bytes_ev (concat trs) <= ent_start f (N.to_nat n) + stops * BUF_SIZE /\
  forall s, total (ask_ev s) (concat trs) <= n + stops.
Proof. exact (interrupted_progress h f g trs stops g' p n). Qed.
Print Assumptions C75_total_work.
(** Nothing that was in place is ever lost. *)
Theorem C75_kept h f g trs stops g' p n k : restarts h f g trs stops g' ->
  valid_index f p n -> well_formed f (N.to_nat n) -> usual_chunks f (N.to_nat n) -> (k <= N.to_nat n)%nat ->
  in_place h f k g -> in_place h f k g'.
Proof. exact (interrupted_keeps h f g trs stops g' p n k). Qed.
Print Assumptions C75_kept.
(** If any of the runs succeeded, all chunks are in place in the end, even if later runs were stopped, failed, or had worse stores. *)
Theorem C75_done h f g trs stops g' p n : restarts h f g trs stops g' ->
  valid_index f p n -> well_formed f (N.to_nat n) -> usual_chunks f (N.to_nat n) -> stops < N.of_nat (length trs) -> in_place h f (N.to_nat n) g'.
Proof. exact (interrupted_done h f g trs stops g' p n). Qed.
Print Assumptions C75_done.
Example C75_met : restarts (e_H toy0) (w_files w_run 105%nat) (w_files w_run 116%nat) trs_ex 1 (w_files (snd (main toy0 csn_s next_run)) 116%nat) /\
  valid_index (w_files w_run 105%nat) p_ex 4 /\ well_formed (w_files w_run 105%nat) 4 /\ usual_chunks (w_files w_run 105%nat) 4 /\
  total put_ev (concat trs_ex) = 4 /\ in_place (e_H toy0) (w_files w_run 105%nat) 1 (w_files w_run 116%nat) /\ 1 < N.of_nat (length trs_ex).
Proof. exact (conj restarts_ex (conj run_index_valid (conj run_index_wf (conj run_usual (conj restarts_puts (conj run_prefix eq_refl)))))). Qed.

(** ** C76: running again after success does nothing *)
Theorem C76_again E argv w w' iino p n w2 : sane E argv w -> good_index E argv w -> hash_reliable E w -> main E argv w = (Ok 0, w') ->
  e_open E (cmd_index argv) = Some iino -> valid_index (w_files w iino) p n -> usual_chunks (w_files w iino) (N.to_nat n) ->
  (forall i, w_files w2 i = w_files w' i) -> sane E argv w2 -> hash_reliable E w2 -> error_free (w_io w2) ->
  (forall i, w_files (snd (main E argv w2)) i = w_files w2 i) /\ (exists tr, run_trace w2 (snd (main E argv w2)) tr /\ Forall still_ev tr) /\
  forall su w1, special_free E (cmd_target argv) (cmd_stores argv) -> init E argv w2 = (Ok (InitOk su), w1) -> fst (main E argv w2) = Ok 0 \/ fst (main E argv w2) = Halt.
Proof. exact (again E argv w w' iino p n w2). Qed.
Print Assumptions C76_again.
(** The same for a target that holds all chunks for any other reason. *)
Theorem C76_complete_target E argv w iino tino p n : sane E argv w -> hash_reliable E w -> error_free (w_io w) ->
  e_open E (cmd_index argv) = Some iino -> e_open_rw E (cmd_target argv) = Some tino -> valid_index (w_files w iino) p n ->
  well_formed (w_files w iino) (N.to_nat n) -> usual_chunks (w_files w iino) (N.to_nat n) -> prefix_present E (w_files w iino) (N.to_nat n) (w_files w tino) ->
  (forall i, w_files (snd (main E argv w)) i = w_files w i) /\ (exists tr, run_trace w (snd (main E argv w)) tr /\ Forall still_ev tr) /\
  forall su w1, init E argv w = (Ok (InitOk su), w1) -> fst (main E argv w) = Ok 0 \/ fst (main E argv w) = Halt \/ fst (main E argv w) = UB.
Proof. exact (run_again E argv w iino tino p n). Qed.
Print Assumptions C76_complete_target.
Example C76_met : sane toy0 csn_s next_run /\ good_index toy0 csn_s next_run /\ hash_reliable toy0 next_run /\ fst (main toy0 csn_s next_run) = Ok 0 /\
  e_open toy0 (cmd_index csn_s) = Some 105%nat /\ valid_index (w_files next_run 105%nat) p_ex 4 /\ usual_chunks (w_files next_run 105%nat) 4 /\
  (forall i, w_files last_run i = w_files (snd (main toy0 csn_s next_run)) i) /\ sane toy0 csn_s last_run /\ hash_reliable toy0 last_run /\ error_free (w_io last_run) /\
  special_free toy0 (cmd_target csn_s) (cmd_stores csn_s).
Proof. exact again_meets. Qed.

(** ** C77: casync extract does what csn does *)
Theorem C77_same E argv os w : extraction argv os -> store_opts os <> [] -> Forall (fun a => ~ mentions a) (store_opts os) ->
  (w_alloc w = [] \/ (length (store_opts os) <= casync_slots argv)%nat) ->
  main E argv w = main (with_driver None E) (as_csn argv os) w.
Proof. exact (casync_is_plain_csn E argv os w). Qed.
Print Assumptions C77_same.
Example C77_met : (extraction casync_x os_x /\ as_csn casync_x os_x = [bs "csn"; bs "i"; bs "t"; bs "s"; bs "t"] /\ (length (store_opts os_x) <= casync_slots casync_x)%nat) /\
  Forall (fun a => ~ mentions a) (store_opts os_x).
Proof. exact (conj extraction_x mentions_x). Qed.
(** casync does not look at CSN_KCAPI_DRIVER, which the manual lists for both. *)
Theorem C77_driver_ignored v E argv w : beq (basename (nth 0 argv [])) (bs "csn") = false -> Forall (fun a => ~ mentions a) (cmd_stores argv) ->
  main (with_driver v E) argv w = main E argv w.
Proof. exact (casync_ignores_driver v E argv w). Qed.
Print Assumptions C77_driver_ignored.
Theorem C77_driver_refuted : exists E argv os w v, extraction argv os /\ e_getenv E DRIVER = Some v /\ w_kcapi w = false /\
  starts (fst (init E (as_csn argv os) w)) = true /\ w_kcapi (snd (init E (as_csn argv os) w)) = true /\
  starts (fst (init E argv w)) = true /\ w_kcapi (snd (init E argv w)) = false.
Proof. exact driver_refuted. Qed.
Print Assumptions C77_driver_refuted.
(** The slots reserved are not always enough (main.c:227): csn starts and casync does not. *)
Theorem C77_slots_refuted : exists E argv os w, extraction argv os /\ store_opts os <> [] /\ e_getenv E DRIVER = None /\ ~ (length (store_opts os) <= casync_slots argv)%nat /\
  error_free (w_io w) /\ starts (fst (init E (as_csn argv os) w)) = true /\ starts (fst (init E argv w)) = false.
Proof. exact slots_refuted. Qed.
Print Assumptions C77_slots_refuted.

(** ** C78: a run that cannot start leaves everything as it is *)
Theorem C78_nothing_done E argv w : sane E argv w -> unstartable E argv w ->
  (forall i, w_files (snd (main E argv w)) i = w_files w i) /\
  (exists tr, run_trace w (snd (main E argv w)) tr /\ Forall (fun ev => match ev with TScan _ => True | _ => False end) tr) /\
  (fst (main E argv w) = Ok 1 \/ fst (main E argv w) = Abort \/ fst (main E argv w) = Halt).
Proof. exact (cannot_start E argv w). Qed.
Print Assumptions C78_nothing_done.
Example C78_met : sane toy0 csn_miss w_run /\ unstartable toy0 csn_miss w_run /\ shows (main toy0 csn_miss w_run) = (Ok 1, [TScan 115]).
Proof. exact (conj miss_sane (conj miss_unstartable miss_result)). Qed.
Example C78_short_index : shows (main toy0 csn_s w_short) = (Ok 1, []).
Proof. exact short_result. Qed.
