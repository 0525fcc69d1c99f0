(** Properties C23-C27: the local store.  Statements only. *)
From Coq Require Import Sorting.Permutation.
From Verif Require Import Base Lib SpecBasic SpecEnv Utils Discr Chunker Caibx Index StoreLocal SpecChunker SpecCaibx SpecStore
  PfUtils PfBasic PfIO PfCaibx PfCaibx2 PfIndex PfFrame PfLocal PfLocal2 Toy Ex1 Ex2 Ex4.
Local Open Scope N_scope.

(** Every answer of a store, made with or without any side-loaded index and asked any number of
    times, is authentic; the store never runs into undefined behaviour; its contents are scanned at
    most once in its whole life (initially or because of a validation failure). *)
Theorem C23_C25_store_life E D path ip p reqs w :
  qsort_ok E -> bsearch_ok E -> disc_of p D -> p_max p <= UINT32_MAX -> files_ok w ->
  w_kcapi w = false \/ kernel_ok (w_kev w) ->
  wp (use_local E path ip p reqs)
    (fun r w' => match r with Some rs => Forall2 (authentic E true) (firstn (length rs) reqs) rs | None => True end /\
                 (scans w' <= S (scans w))%nat)
    (fun bd w' => bd <> BUB /\ (scans w' <= S (scans w))%nat) w.
Proof. exact (fun Hq Hb Hd Hm Hf Hk => use_local_spec E true D Hq Hb path ip p reqs w Hd Hm Hf (fun _ => Hk)). Qed.
Print Assumptions C23_C25_store_life.
Theorem C23_authentic E D path ip p reqs w rs w' :
  qsort_ok E -> bsearch_ok E -> disc_of p D -> p_max p <= UINT32_MAX -> files_ok w ->
  w_kcapi w = false \/ kernel_ok (w_kev w) ->
  use_local E path ip p reqs w = (Ok (Some rs), w') ->
  Forall2 (authentic E true) (firstn (length rs) reqs) rs.
Proof. exact (fun Hq Hb Hd Hm Hf Hk H => proj1 (wp_ok _ _ _ _ _ _ _ (use_local_spec E true D Hq Hb path ip p reqs w Hd Hm Hf (fun _ => Hk)) H)). Qed.
Print Assumptions C23_authentic.
(** Whatever the kernel hash interface does, an end piece of the data hashes to the id. *)
Theorem C23_any_kernel E D path ip p reqs w rs w' :
  qsort_ok E -> bsearch_ok E -> disc_of p D -> p_max p <= UINT32_MAX -> files_ok w ->
  use_local E path ip p reqs w = (Ok (Some rs), w') ->
  Forall2 (authentic E false) (firstn (length rs) reqs) rs.
Proof. exact (fun Hq Hb Hd Hm Hf H => proj1 (wp_ok _ _ _ _ _ _ _ (use_local_spec E false D Hq Hb path ip p reqs w Hd Hm Hf (fun C => False_ind _ (Bool.diff_false_true C))) H)). Qed.
Print Assumptions C23_any_kernel.
Theorem C25_one_rescan E D path ip p reqs w :
  qsort_ok E -> bsearch_ok E -> disc_of p D -> p_max p <= UINT32_MAX -> files_ok w ->
  (scans (final (use_local E path ip p reqs) w) <= S (scans w))%nat.
Proof. exact (fun Hq Hb Hd Hm Hf => wp_final _ _ (fun w' => (scans w' <= S (scans w))%nat) w
  (wp_mono _ _ _ _ _ _ _ (use_local_spec E false D Hq Hb path ip p reqs w Hd Hm Hf (fun C => False_ind _ (Bool.diff_false_true C)))
     (fun _ _ H => proj2 H) (fun _ _ H => proj2 H))). Qed.
Print Assumptions C25_one_rescan.
Example C23_meets : disc_of p_ex 45 /\ p_max p_ex <= UINT32_MAX /\ files_ok (st_world l_stale).
Proof. split; [exact disc_ex|]. split; [exact p_ex_max|]. apply st_world_ok; [apply lists_ok|cbn; auto]. Qed.
Example C23_C25_runs :
  answers_of (fst (use_local toy0 (bs "s") None p_ex reqs_ex (st_world l_good))) = [Some 65; Some 15; Some 65] /\
  answers_of (fst (use_local toy0 (bs "s") (Some (bs "i")) p_ex reqs_ex (st_world l_good))) = [Some 65; Some 15; Some 65] /\
  answers_of (fst (use_local toy0 (bs "s") (Some (bs "i")) p_ex reqs_ex (st_world l_stale))) = [Some 65; Some 15; Some 65] /\
  scans (snd (use_local toy0 (bs "s") (Some (bs "i")) p_ex reqs_ex (st_world l_good))) = 0%nat /\
  scans (snd (use_local toy0 (bs "s") (Some (bs "i")) p_ex reqs_ex (st_world l_stale))) = 1%nat /\
  scans (snd (use_local toy0 (bs "s") None p_ex reqs_ex (st_world l_stale))) = 1%nat.
Proof. exact answers_ex. Qed.

(** When all entries for the requested id are stale but lie inside the store and fit the buffer,
    the store goes on with exactly the entries a store without index has. *)
Theorem C24_stale_falls_back E D ls id out w r out' ls' w' :
  qsort_ok E -> bsearch_ok E -> disc_of (ls_params ls) D -> p_max (ls_params ls) <= UINT32_MAX ->
  let f := w_files w (ls_ino ls) in
  blen f < OFF_LIMIT -> w_kcapi w = false \/ kernel_ok (w_kev w) -> ls_ok E true f ls ->
  error_free (w_io w) -> ~ In false (w_alloc w) -> e_kind E (ls_ino ls) <> KOther ->
  (exists e, In e (ix_entries (ls_idx ls)) /\ en_id e = id) ->
  (forall e, In e (ix_entries (ls_idx ls)) -> en_id e = id -> en_start e + en_len e <= blen f /\ en_len e <= blen out /\
     ~ validated e /\ en_len e <> 0 /\ e_H E (slice_N (en_start e) (en_len e) f) <> id) ->
  store_local_get_chunk E ls id out w = (Ok (r, out', ls'), w') ->
  Permutation (ix_entries (ls_idx ls')) (scan_entries E (chunks (ls_params ls) D f)) /\
  exists out1, length out1 = length out /\ answered False (scan_entries E (chunks (ls_params ls) D f)) f id out1 r out'.
Proof. exact (stale_falls_back E D ls id out w r out' ls' w'). Qed.
Print Assumptions C24_stale_falls_back.
Theorem C24_without_index E D p path w ls w' : disc_of p D -> p_max p <= UINT32_MAX -> files_ok w -> ~ In IoZero (w_io w) ->
  store_local_new E path None p w = (Ok (Some ls), w') ->
  ix_entries (ls_idx ls) = scan_entries E (chunks p D (w_files w (ls_ino ls))).
Proof. exact (new_without_index E D p path w ls w'). Qed.
Print Assumptions C24_without_index.
Example C24_meets : ls_ok toy0 true (w_files w_stale (ls_ino ls_stale)) ls_stale /\ error_free (w_io w_stale) /\ ~ In false (w_alloc w_stale) /\
  (exists e, In e (ix_entries (ls_idx ls_stale)) /\ en_id e = id2) /\
  (forall e, In e (ix_entries (ls_idx ls_stale)) -> en_id e = id2 -> en_start e + en_len e <= blen (w_files w_stale (ls_ino ls_stale)) /\
     en_len e <= blen (zeros 300) /\ ~ validated e /\ en_len e <> 0 /\
     e_H toy0 (slice_N (en_start e) (en_len e) (w_files w_stale (ls_ino ls_stale))) <> id2) /\
  fst (fst (match fst (store_local_get_chunk toy0 ls_stale id2 (zeros 300) w_stale) with Ok r => r | _ => (None, [], ls_stale) end)) = Some 65.
Proof. exact stale_ex. Qed.
(** Without these conditions a wrong index is not discarded: the same request, answered without
    the index, fails (entry past the end, entry longer than the buffer) or aborts (empty entry). *)
Theorem C24_past_end_refuted : exists E path ip p reqs w,
  env_ok E /\ files_ok w /\ error_free (w_io w) /\ w_alloc w = [] /\ good_params p /\
  answers_of (fst (use_local E path None p reqs w)) = [Some 80] /\
  answers_of (fst (use_local E path (Some ip) p reqs w)) = [None].
Proof. exact sideload_refuted. Qed.
Print Assumptions C24_past_end_refuted.
Theorem C24_too_long_refuted : exists E path ip p reqs w,
  env_ok E /\ files_ok w /\ error_free (w_io w) /\ w_alloc w = [] /\ good_params p /\
  answers_of (fst (use_local E path None p reqs w)) = [Some 80] /\
  answers_of (fst (use_local E path (Some ip) p reqs w)) = [None].
Proof. exact sideload_long_refuted. Qed.
Print Assumptions C24_too_long_refuted.
Theorem C24_empty_entry_refuted : exists E path ip p reqs w,
  env_ok E /\ files_ok w /\ error_free (w_io w) /\ w_alloc w = [] /\ good_params p /\
  answers_of (fst (use_local E path None p reqs w)) = [Some 80] /\
  fst (use_local E path (Some ip) p reqs w) = Abort.
Proof. exact sideload_zero_refuted. Qed.
Print Assumptions C24_empty_entry_refuted.

(** A store that changes after it was scanned yields wrong data. *)
Theorem C26_bit_rot_refuted : exists E path p w0 ls w1 f' id out r out' ls' w2,
  env_ok E /\ files_ok w0 /\ bytes_ok f' /\ length f' = length (w_files w1 (ls_ino ls)) /\
  store_local_new E path None p w0 = (Ok (Some ls), w1) /\
  store_local_get_chunk E ls id out (change_file (ls_ino ls) f' w1) = (Ok (Some r, out', ls'), w2) /\
  0 < r /\ e_H E (firstn (N.to_nat r) out') <> id.
Proof. exact bit_rot_refuted. Qed.
Print Assumptions C26_bit_rot_refuted.

(** Every store smaller than 5/6 of the average chunk size aborts the program (unless memory runs
    out first); no store of at least that size does. *)
Theorem C27_small_store_refuted E path ino p w : e_open E path = Some ino -> e_kind E ino <> KOther ->
  0 < p_avg p -> 6 * blen (w_files w ino) < 5 * p_avg p -> p_avg p < 2 ^ 32 -> ~ In false (w_alloc w) ->
  fst (store_local_new E path None p w) = Abort.
Proof. exact (small_store_aborts E path ino p w). Qed.
Print Assumptions C27_small_store_refuted.
Example C27_small_run : fst (store_local_new toy0 (bs "s") None (mkParams 16384 65536 262144) (toy_world [(115%nat, zeros 1000)] 50)) = Abort.
Proof. exact small_ex. Qed.
Theorem C27_large_store E path D p w : disc_of p D -> 0 < p_avg p -> p_max p <= UINT32_MAX -> files_ok w ->
  (forall ino, e_open E path = Some ino -> 5 * p_avg p <= 6 * blen (w_files w ino) /\ blen (w_files w ino) < 2 ^ 60) ->
  match fst (store_local_new E path None p w) with Ok _ | Halt => True | Abort | UB => False end.
Proof. exact (fun Hd Ha Hm Hf Hs => large_store_safe E path None D p w Hd Ha Hm Hf Hs eq_refl). Qed.
Print Assumptions C27_large_store.
Example C27_large_meets : 5 * p_avg p_ex <= 6 * blen (w_files (st_world l_good) 115%nat) /\ blen (w_files (st_world l_good) 115%nat) < 2 ^ 60.
Proof. split; [vm_compute; discriminate|vm_compute; reflexivity]. Qed.
