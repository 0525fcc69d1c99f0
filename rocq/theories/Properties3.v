(** Properties C20-C22: index files and the chunk index.  Statements only. *)
From Verif Require Import Base Lib SpecBasic SpecEnv Utils Chunker Caibx Index SpecCaibx SpecIndex PfUtils PfIO PfCaibx PfCaibx2 PfIndex Toy Ex1 Ex3.
Local Open Scope N_scope.

Theorem C20_round_trip E ino flags p l w :
  w_files w ino = index_file flags p l -> e_kind E ino <> KOther ->
  known_flags flags -> good_params p -> Forall (fun e => good_id (snd e)) l -> ascending 0 l ->
  blen (index_file flags p l) < OFF_LIMIT -> error_free (w_io w) -> (104 + 40 * length l <= transfers (w_io w))%nat ->
  exists w1, caibx_load_header E ino w = (Ok (Some (p, N.of_nat (length l))), w1) /\
  exists w2, caibx_iterate_entries record_entry ino p (N.of_nat (length l)) [] w1 = (Ok (true, spans 0 l), w2).
Proof. exact (round_trip E ino flags p l w). Qed.
Print Assumptions C20_round_trip.
Example C20_round_trip_meets :
  known_flags 0x9000000000000000 /\ good_params p_ix /\ Forall (fun e => good_id (snd e)) l_ix /\
  ascending 0 l_ix /\ blen f_ix < OFF_LIMIT /\ valid_index f_ix p_ix 3 /\ bytes_ok f_ix.
Proof. exact f_ix_ok. Qed.
Example C20_round_trip_run :
  let w := io_world f_ix (IoIntr :: repeat (IoN 6) 230) in
  error_free (w_io w) /\ (104 + 40 * length l_ix <= transfers (w_io w))%nat /\
  fst ((h <- caibx_load_header toy0 0%nat ;; match h with Some (p, n) => '(ok, l) <- caibx_iterate_entries record_entry 0 p n [] ;; ret (Some (p, n, ok, l)) | None => ret None end) w) =
  Ok (Some (p_ix, 3, true, [(0, 70000, repeat 1 32); (70000, 0, repeat 2 32); (70000, 100000, repeat 255 32)])).
Proof. exact round_trip_ex. Qed.

(** Whatever the file and the schedule, iterating delivers nothing but the listed entries, in
    order, or reports failure because of a read error. *)
Theorem C20_any_schedule ino flags p l w :
  w_files w ino = index_file flags p l -> Forall (fun e => good_id (snd e)) l -> ascending 0 l ->
  blen (index_file flags p l) < OFF_LIMIT ->
  wp (caibx_iterate_entries record_entry ino p (N.of_nat (length l)) [])
    (fun r w' => w_files w' = w_files w /\ if fst r then snd r = spans 0 l else ~ error_free (w_io w))
    (fun b w' => b = BHalt /\ w_files w' = w_files w /\ (transfers (w_io w) < 40 * length l)%nat) w.
Proof. exact (iterate_record_wp ino flags p l w). Qed.
Print Assumptions C20_any_schedule.

Theorem C21_accepts_only_valid E ino w : bytes_ok (w_files w ino) -> blen (w_files w ino) < OFF_LIMIT ->
  forall p n w', caibx_load_header E ino w = (Ok (Some (p, n)), w') ->
  valid_index (w_files w ino) p n /\ e_kind E ino <> KOther /\ w_files w' = w_files w.
Proof. exact (load_sound E ino w). Qed.
Print Assumptions C21_accepts_only_valid.
Theorem C21_accepts_every_valid E ino w : bytes_ok (w_files w ino) -> blen (w_files w ino) < OFF_LIMIT ->
  forall p n, valid_index (w_files w ino) p n -> e_kind E ino <> KOther -> error_free (w_io w) -> (104 <= transfers (w_io w))%nat ->
  fst (caibx_load_header E ino w) = Ok (Some (p, n)).
Proof. exact (load_complete E ino w). Qed.
Print Assumptions C21_accepts_every_valid.
Theorem C21_rejects_invalid E ino w : bytes_ok (w_files w ino) -> blen (w_files w ino) < OFF_LIMIT ->
  (forall p n, ~ valid_index (w_files w ino) p n) -> (104 <= transfers (w_io w))%nat ->
  fst (caibx_load_header E ino w) = Ok None.
Proof. exact (load_rejects E ino w). Qed.
Print Assumptions C21_rejects_invalid.
Theorem C21_prefix_rejected f p n k : valid_index f p n -> (forall i, (i < N.to_nat n)%nat -> ent_end f i <> 0) ->
  (k < length f)%nat -> forall p' n', ~ valid_index (firstn k f) p' n'.
Proof. exact (prefix_rejected f p n k). Qed.
Print Assumptions C21_prefix_rejected.
Theorem C21_extension_rejected f p n x : valid_index f p n -> (0 < length x < 40)%nat ->
  forall p' n', ~ valid_index (f ++ x) p' n'.
Proof. exact (extension_rejected f p n x). Qed.
Print Assumptions C21_extension_rejected.
(** Without the condition on the end offsets a proper prefix can be valid: an entry that ends at
    offset 0 can look like a footer. *)
Theorem C21_prefix_refuted : exists f p n k p' n',
  bytes_ok f /\ valid_index f p n /\ (k < length f)%nat /\ valid_index (firstn k f) p' n'.
Proof. exact prefix_refuted. Qed.
Print Assumptions C21_prefix_refuted.
Example C21_meets : valid_index f_ix p_ix 3 /\ forall i, (i < N.to_nat 3)%nat -> ent_end f_ix i <> 0.
Proof. split; [apply f_ix_ok|exact f_ix_ends]. Qed.
Example C21_truncated : fst (caibx_load_header toy0 0 (io_world (firstn 184 f_ix) (repeat (IoN 6) 230))) = Ok None.
Proof. vm_compute. reflexivity. Qed.

Theorem C22_lookup_exact E expected ops w : qsort_ok E -> bsearch_ok E -> 0 < expected -> lens_positive ops ->
  60 * (N.of_nat (length ops) + 1) < 2 ^ 64 ->
  match use_index E expected ops w with
  | (Ok (Some rs), _) => answers (In false (w_alloc w)) [] ops rs
  | (Ok None, _) => In false (w_alloc w)
  | _ => False
  end.
Proof. exact (use_index_spec E expected ops w). Qed.
Print Assumptions C22_lookup_exact.
Example C22_meets : lens_positive ops_ix /\
  fst (use_index toy0 1 ops_ix (mkWorld (fun _ => []) [] [true; true; true; false] false [] 0 [])) =
  Ok (Some [None; Some (mkEntry 10 3 0 [5]); Some (mkEntry 20 4 0 [9]); Some (mkEntry 10 3 0 [5]); Some (mkEntry 30 5 0 [5]); None; None; None]).
Proof. exact ops_ix_ex. Qed.
