(** Properties C01-C04, C06-C09, C11-C13 and C47-C49: whole runs.  Statements only. *)
From Verif Require Import Base Lib SpecBasic SpecEnv Utils Discr Chunker Caibx Index StoreLocal Target StoreHttp Chain MainProg SpecChunker SpecCaibx SpecStore SpecHttp SpecMain SpecRun SpecOrder
  PfIO PfKeyspec PfReadonly PfSync PfOrder Toy Ex2 Ex4 Ex6.
Local Open Scope N_scope.

(** The run used as example below: four entries, the first one is in the target already, the third
    repeats the second; it ends with success. *)
Example run_meets : sane toy0 csn_s w_run /\ good_index toy0 csn_s w_run /\ hash_reliable toy0 w_run /\ error_free (w_io w_run) /\
  described toy0 csn_s w_run pieces_run /\
  exists w', main toy0 csn_s w_run = (Ok 0, w') /\ w_files w' 116%nat = concat pieces_run /\ count is_asked w' = 2%nat /\ count is_put w' = 3%nat.
Proof. exact (conj run_sane (conj run_good (conj (toy_reliable w_run eq_refl) (conj (proj1 (toy_world_quiet l_run t_run)) (conj run_desc run_eq))))). Qed.

(** ** C01 *)
Theorem C01_success_authentic E argv w w' : sane E argv w -> good_index E argv w -> hash_reliable E w -> main E argv w = (Ok 0, w') ->
  exists iino tino p n, e_open E (cmd_index argv) = Some iino /\ e_open_rw E (cmd_target argv) = Some tino /\ valid_index (w_files w iino) p n /\
    forall i, (i < N.to_nat n)%nat -> ent_end (w_files w iino) i <= blen (w_files w' tino) /\
      (0 < ent_size (w_files w iino) i -> e_H E (ent_slice (w_files w iino) i (w_files w' tino)) = ent_id (w_files w iino) i).
Proof. exact (success_authentic E argv w w'). Qed.
Print Assumptions C01_success_authentic.

(** ** C02: whatever the kernel hash interface does *)
Theorem C02_success_image E argv w w' pieces : sane E argv w -> described E argv w pieces -> main E argv w = (Ok 0, w') ->
  exists iino tino p n, e_open E (cmd_index argv) = Some iino /\ e_open_rw E (cmd_target argv) = Some tino /\ valid_index (w_files w iino) p n /\
    (firstn (length (concat pieces)) (w_files w' tino) = concat pieces \/
     collision E pieces (fun y => exists i, (i < N.to_nat n)%nat /\ end_piece y (ent_slice (w_files w iino) i (w_files w' tino)))).
Proof. exact (success_image E argv w w' pieces). Qed.
Print Assumptions C02_success_image.

(** ** C03: [snd (main ..)] is the state in which the run ended, for whatever reason; a run that is
    killed is one whose schedule is exhausted. *)
Theorem C03_always_image E argv w pieces tino : sane E argv w -> described E argv w pieces -> e_open_rw E (cmd_target argv) = Some tino ->
  let w' := snd (main E argv w) in
  exists tr, run_trace w w' tr /\
    ((forall k, nth_error (w_files w' tino) k = nth_error (w_files w tino) k \/
                (k < length (concat pieces))%nat /\ nth_error (w_files w' tino) k = nth_error (concat pieces) k) \/
     collision E pieces (fun y => exists o D, In (TPut tino o D) tr /\ end_piece y D)).
Proof. exact (always_image E argv w pieces tino). Qed.
Print Assumptions C03_always_image.
Theorem C03_always_authentic E argv w tino : sane E argv w -> good_index E argv w -> hash_reliable E w -> e_open_rw E (cmd_target argv) = Some tino ->
  let w' := snd (main E argv w) in
  forall k, nth_error (w_files w' tino) k = nth_error (w_files w tino) k \/
    exists iino p n j D q, e_open E (cmd_index argv) = Some iino /\ valid_index (w_files w iino) p n /\ (j < N.to_nat n)%nat /\
      blen D = ent_size (w_files w iino) j /\ e_H E D = ent_id (w_files w iino) j /\
      k = (N.to_nat (ent_start (w_files w iino) j) + q)%nat /\ (q < length D)%nat /\ nth_error (w_files w' tino) k = nth_error D q.
Proof. exact (always_authentic E argv w tino). Qed.
Print Assumptions C03_always_authentic.

(** ** C04 *)
Theorem C04_resume E argv w iino tino p n k : sane E argv w -> good_index E argv w -> hash_reliable E w -> error_free (w_io w) ->
  e_open E (cmd_index argv) = Some iino -> valid_index (w_files w iino) p n -> e_open_rw E (cmd_target argv) = Some tino ->
  (k <= N.to_nat n)%nat -> prefix_present E (w_files w iino) k (w_files w tino) ->
  exists tr, run_trace w (snd (main E argv w)) tr /\
    Forall (fun ev => match ev with
                      | TWrite _ o _ | TPut _ o _ => ent_start (w_files w iino) k <= o /\ (k < N.to_nat n)%nat
                      | TQuery _ id => exists j, (k <= j < N.to_nat n)%nat /\ id = ent_id (w_files w iino) j
                      | _ => True end) tr.
Proof. exact (resume E argv w iino tino p n k). Qed.
Print Assumptions C04_resume.
Example C04_meets : e_open toy0 (cmd_index csn_s) = Some 105%nat /\ e_open_rw toy0 (cmd_target csn_s) = Some 116%nat /\
  valid_index (w_files w_run 105%nat) p_ex 4 /\ prefix_present toy0 (w_files w_run 105%nat) 1 (w_files w_run 116%nat).
Proof. exact run_resumes. Qed.

(** ** C06: the claim fails: an entry of more than 4 GiB, and one that goes backwards, are skipped. *)
Theorem C06_huge_entry_refuted : exists E argv w w' iino tino p n i, fine E argv w /\ main E argv w = (Ok 0, w') /\
  e_open E (cmd_index argv) = Some iino /\ e_open_rw E (cmd_target argv) = Some tino /\ valid_index (w_files w iino) p n /\
  (i < N.to_nat n)%nat /\ ent_start (w_files w iino) i <= ent_end (w_files w iino) i /\ blen (w_files w' tino) < ent_end (w_files w iino) i.
Proof. exact huge_refuted. Qed.
Print Assumptions C06_huge_entry_refuted.
Theorem C06_backward_entry_refuted : exists E argv w w' iino p n i, fine E argv w /\ main E argv w = (Ok 0, w') /\
  e_open E (cmd_index argv) = Some iino /\ valid_index (w_files w iino) p n /\
  (i < N.to_nat n)%nat /\ ent_end (w_files w iino) i < ent_start (w_files w iino) i.
Proof. exact back_refuted. Qed.
Print Assumptions C06_backward_entry_refuted.

(** ** C07: what is written for a well-formed index *)
Theorem C07_writes_verified E argv w : sane E argv w -> good_index E argv w -> hash_reliable E w ->
  exists tr, run_trace w (snd (main E argv w)) tr /\
  forall i o d, In (TWrite i o d) tr \/ In (TPut i o d) tr -> e_open_rw E (cmd_target argv) = Some i /\
    exists iino p n j D, e_open E (cmd_index argv) = Some iino /\ valid_index (w_files w iino) p n /\ (j < N.to_nat n)%nat /\
      let a := ent_start (w_files w iino) j in
      blen D = ent_size (w_files w iino) j /\ (0 < blen D -> e_H E D = ent_id (w_files w iino) j) /\
      a <= o /\ o + blen d <= a + blen D /\ d = slice (N.to_nat (o - a)) (length d) D.
Proof. exact (writes_verified E argv w). Qed.
Print Assumptions C07_writes_verified.
(** Undefined behaviour occurs only after every entry has been written (freeing a local store whose
    rescan failed). *)
Theorem C07_no_overrun E argv w : sane E argv w -> good_index E argv w -> fst (main E argv w) = UB ->
  exists iino tino p n, e_open E (cmd_index argv) = Some iino /\ e_open_rw E (cmd_target argv) = Some tino /\ valid_index (w_files w iino) p n /\
    held E false (w_files w iino) (w_files w tino) (N.to_nat n) (w_files (snd (main E argv w)) tino).
Proof. exact (ub_only_after E argv w). Qed.
Print Assumptions C07_no_overrun.
(** The claim fails for other indices: lengths that differ, an empty entry, reading past the buffer. *)
Theorem C07_repeated_id_refuted : exists E argv w w' iino tino p n i, fine E argv w /\ main E argv w = (Ok 0, w') /\
  e_open E (cmd_index argv) = Some iino /\ e_open_rw E (cmd_target argv) = Some tino /\ valid_index (w_files w iino) p n /\
  (i < N.to_nat n)%nat /\ (forall j, (j < N.to_nat n)%nat -> 0 < ent_size (w_files w iino) j) /\ wrong_entry E (w_files w iino) (w_files w' tino) i.
Proof. exact rep_refuted. Qed.
Print Assumptions C07_repeated_id_refuted.
Theorem C07_empty_entry_refuted : exists E argv w w' iino tino p n i, fine E argv w /\ main E argv w = (Ok 0, w') /\
  e_open E (cmd_index argv) = Some iino /\ e_open_rw E (cmd_target argv) = Some tino /\ valid_index (w_files w iino) p n /\
  (i < N.to_nat n)%nat /\ ent_size (w_files w iino) 0 = 0 /\ wrong_entry E (w_files w iino) (w_files w' tino) i.
Proof. exact empty_refuted. Qed.
Print Assumptions C07_empty_entry_refuted.
Theorem C07_overrun_refuted : exists E argv w, fine E argv w /\ fst (main E argv w) = UB.
Proof. exact oob_refuted. Qed.
Print Assumptions C07_overrun_refuted.

(** ** C08 *)
Theorem C08_in_order E argv w : in_order (length (cmd_stores argv)) w (snd (main E argv w)).
Proof. exact (main_in_order E argv w). Qed.
Print Assumptions C08_in_order.
Theorem C08_answer E l t id out w r out' l' t' w' : store_chain_get_chunk E l t id out w = (Ok (r, out', l', t'), w') -> answered_by w w' r.
Proof. exact (chain_result E l t id out w r out' l' t' w'). Qed.
Print Assumptions C08_answer.

(** ** C09 *)
Theorem C09_fetched_once E argv w : fetched_once w (snd (main E argv w)).
Proof. exact (main_fetched_once E argv w). Qed.
Print Assumptions C09_fetched_once.

(** ** C11: after any number of entries, whatever the target answers with data is authentic. *)
Theorem C11_target_serves E argv w k id out m out' w' : sane E argv w -> good_index E argv w -> hash_reliable E w ->
  sync_then_ask E argv k id out w = (Ok (Some (Some m, out')), w') -> 0 < m -> m <= blen out /\ e_H E (firstn (N.to_nat m) out') = id.
Proof. exact (target_serves E argv w k id out m out' w'). Qed.
Print Assumptions C11_target_serves.
Example C11_meets : sane toy0 csn_ts (run_world l_twice []) /\ good_index toy0 csn_ts (run_world l_twice []) /\ hash_reliable toy0 (run_world l_twice []) /\
  match fst (sync_then_ask toy0 csn_ts 2 id1 (zeros 300) (run_world l_twice [])) with Ok (Some (r, o)) => r = Some 80 /\ firstn 80 o = c1 | _ => False end.
Proof. exact serve_all. Qed.

(** ** C12 *)
Theorem C12_only_target E argv w : only_target E argv w (snd (main E argv w)).
Proof. exact (main_only_target E argv w). Qed.
Print Assumptions C12_only_target.

(** ** C13: the claim fails. *)
Theorem C13_alias_refuted : exists E argv w w' iino tino p n i,
  env_ok E /\ server_ok E /\ env_strings E /\ files_ok w /\ good_index E argv w /\ hash_reliable E w /\ error_free (w_io w) /\ w_alloc w = [] /\
  main E argv w = (Ok 0, w') /\
  e_open E (cmd_index argv) = Some iino /\ e_open_rw E (cmd_target argv) = Some tino /\ iino <> tino /\ valid_index (w_files w iino) p n /\
  (i < N.to_nat n)%nat /\ wrong_entry E (w_files w iino) (w_files w' tino) i.
Proof. exact alias_refuted. Qed.
Print Assumptions C13_alias_refuted.

(** ** C47: the claim fails: nothing is flushed in any run, so that every old content may survive. *)
Theorem C47_never_flushed E argv w : exists tr, run_trace w (snd (main E argv w)) tr /\ (forall i, ~ In (TSync i) tr) /\
  forall ino, survives ino (rev tr) (w_files w ino) (w_files w ino).
Proof. exact (never_flushed E argv w). Qed.
Print Assumptions C47_never_flushed.
Theorem C47_survives_refuted : exists E argv w w' tino tr g', fine E argv w /\ good_index E argv w /\ main E argv w = (Ok 0, w') /\
  e_open_rw E (cmd_target argv) = Some tino /\ run_trace w w' tr /\
  survives tino (rev tr) (w_files w tino) g' /\ blen g' < blen (w_files w' tino).
Proof. exact flush_refuted. Qed.
Print Assumptions C47_survives_refuted.

(** ** C48: the claim fails. *)
Theorem C48_help_refuted : exists E argv w, env_ok E /\ server_ok E /\ env_strings E /\ files_ok w /\ error_free (w_io w) /\ w_alloc w = [] /\
  asks_help argv /\ fst (main E argv w) = UB.
Proof. exact help_refuted. Qed.
Print Assumptions C48_help_refuted.

(** ** C49 *)
Theorem C49_classified tp arg : documented tp arg (classify_arg tp arg).
Proof. exact (classified tp arg). Qed.
Print Assumptions C49_classified.
Theorem C49_unambiguous tp arg a a' : documented tp arg a -> documented tp arg a' -> a = a'.
Proof. exact (documented_unique tp arg a a'). Qed.
Print Assumptions C49_unambiguous.
Theorem C49_stores_in_order E argv w su w' l : init E argv w = (Ok (InitOk su), w') -> su_store su = Some l ->
  Forall2 (fun arg ss => exists a, documented (cmd_target argv) arg a /\ store_for E (su_params su) a ss) (cmd_stores argv) l.
Proof. exact (stores_in_order E argv w su w' l). Qed.
Print Assumptions C49_stores_in_order.
Example C49_meets : documented (bs "t") (bs "s:x") (ArgLocal (bs "s") (Some (bs "x"))) /\
  two_stores (fst (init toy0 csn_ts (run_world l_twice []))) = true.
Proof. exact (conj doc_run init_run). Qed.
