(** Properties C66-C72: what the programs leave behind, where copies of the key remain, and the counters of a
    chain.  Statements only. *)
From Verif Require Import Base Utils Encrypt Res SpecRes PfRes5 MainProg Stats SpecRun SpecStats PfStats Toy Ex13 Ex14.
Local Open Scope nat_scope.

(** ** C66: csn-tool gives everything back *)
(** Whatever fails, nothing undefined happens, no object is left, and never more than one file is open. *)
Theorem C66_tool_releases src l : always (crypt src l) (fun _ live _ peak => live = [] /\ peak <= 1).
Proof. exact (tool_releases src l). Qed.
Print Assumptions C66_tool_releases.
Example C66_run : let r := crypt (SFile (hex64 ++ [10]%N)) [job1] (r_init tool_ans) in
  (fst r, map o_kind (r_gone (snd r)), length (r_live (snd r)), r_peak (snd r)) =
  (Ok true, [KStack; KStack; KCipher; KMem; KFd; KFd; KStack; KStack; KMem; KFd], 0, 1).
Proof. exact tool_run. Qed.

(** ** C67: copies of the key in csn-tool *)
(** Every stack buffer is wiped before it is given up, except the very last, which holds the key. *)
Theorem C67_tool_stack src l : always (crypt src l) (fun r _ gone _ => exists i d rest,
  gone = mkObj i KStack d :: rest /\ (r = true -> decode_key_buf key_buf_new (src_text src) = (true, d)) /\
  forall o, In o rest -> o_kind o = KStack -> all_zero (o_data o)).
Proof. exact (tool_stack src l). Qed.
Print Assumptions C67_tool_stack.
Example C67_run : let r := crypt (SFile (hex64 ++ [10]%N)) [job1] (r_init tool_ans) in
  map o_data (firstn 2 (r_gone (snd r))) = [key32; repeat 0%N 32].
Proof. exact tool_last. Qed.
(** After success the heap blocks given back hold chunk data or a key file whose key text was wiped. *)
Theorem C67_tool_heap src l : always (crypt src l) (fun r _ gone _ => r = true -> forall o, In o gone -> o_kind o = KMem ->
  (exists c, src = SFile c /\ text_wiped c (src_text src) (o_data o)) \/
  (exists j k, In j l /\ o_data o = firstn k (j_data j))).
Proof. exact (tool_heap src l). Qed.
Print Assumptions C67_tool_heap.
(** The raw key stays on the stack (csn-tool.c:124-169 wipes the context but not [key]). *)
Theorem C67_stack_refuted : exists src l, ~ always (crypt src l) (fun _ _ gone _ =>
  forall o, In o gone -> o_kind o = KStack -> all_zero (o_data o)).
Proof. exact stack_refuted. Qed.
Print Assumptions C67_stack_refuted.
(** A key file that cannot be read to its end is given back unwiped (utils.c:203-217). *)
Theorem C67_read_refuted : exists c l, ~ always (crypt (SFile c) l) (fun _ _ gone _ =>
  forall o, In o gone -> o_kind o = KMem -> ~ holds hex64 o).
Proof. exact partial_refuted. Qed.
Print Assumptions C67_read_refuted.

(** ** C68: an HTTP store from creation to store_free *)
(** Only cipher contexts can be left: all but the last of those asked for when the store was made, at most all of
    them when it was not. *)
Theorem C68_http_leftovers arg ps l : always (http_life arg ps l) (fun r live _ peak =>
  count KCipher live = length live /\ length live <= encrypts ps /\
  (r = true -> length live = encrypts ps - 1) /\ peak <= 1).
Proof. exact (http_leftovers arg ps l). Qed.
Print Assumptions C68_http_leftovers.
(** After a complete life a heap block that was given back holds no copy of the key, unless the key is part of the
    argument: it is zero, or a beginning of the argument, or a key file whose key text was wiped. *)
Theorem C68_http_heap arg ps l : always (http_life arg ps l) (fun r _ gone _ => r = true -> forall o, In o gone -> o_kind o = KMem ->
  all_zero (o_data o) \/ (exists k, o_data o = firstn k arg) \/
  exists c, In (PEncrypt (SFile c)) ps /\ text_wiped c (src_text (SFile c)) (o_data o)).
Proof. exact (http_heap arg ps l). Qed.
Print Assumptions C68_http_heap.
Example C68_run : let r := http_life env_url [PEncrypt (SText hex64)] reqs1 (r_init []) in
  (fst r, r_live (snd r), map o_data (filter (fun o => rkind_eqb (o_kind o) KMem) (r_gone (snd r)))) =
  (Ok true, [], [repeat 0%N 32; env_url; []; []; env_url]).
Proof. exact http_run. Qed.
(** A key in the argument stays in the store's name and in the copy of the argument. *)
Theorem C68_url_refuted : exists arg ps, ~ always (http_life arg ps []) (fun r _ gone _ => r = true ->
  forall o, In o gone -> o_kind o = KMem -> ~ holds hex64 o).
Proof. exact http_url_refuted. Qed.
Print Assumptions C68_url_refuted.
(** A store that cannot be made leaves a cipher context (store-http.c:497-512) ... *)
Theorem C68_failure_refuted : exists arg ps, ~ always (http_new arg ps) (fun r live _ _ => r = None -> live = []).
Proof. exact http_cut_refuted. Qed.
Print Assumptions C68_failure_refuted.
(** ... and frees the structure with the key in it. *)
Theorem C68_key_refuted : exists arg ps, ~ always (http_new arg ps) (fun _ _ gone _ =>
  forall o, In o gone -> o_kind o = KMem -> ~ holds key32 o).
Proof. exact http_key_refuted. Qed.
Print Assumptions C68_key_refuted.
(** Two encryption parameters: the first context is lost. *)
Theorem C68_twice_refuted : exists arg ps, ~ always (http_life arg ps []) (fun r live _ _ => r = true -> live = []).
Proof. exact http_two_refuted. Qed.
Print Assumptions C68_twice_refuted.

(** ** C69: a local store from creation to store_free *)
Theorem C69_local_leftovers special index n : special && index = false -> always (local_life special index n) (fun r live _ peak =>
  peak <= 2 /\ count KFd live + count KMem live = length live /\ count KFd live <= 1 /\ count KMem live <= count KFd live /\
  (r = true -> count KFd live = 1 /\ count KMem live = 0)).
Proof. exact (local_leftovers special index n). Qed.
Print Assumptions C69_local_leftovers.
Example C69_run : let r := local_life false true 1 (r_init local_ans) in
  (fst r, r_live (snd r), map o_kind (r_gone (snd r)), r_peak (snd r)) =
  (Ok true, [mkObj 1 KFd []], [KMem; KMem; KMem; KFd], 2).
Proof. exact local_run. Qed.
(** The descriptor is never closed. *)
Theorem C69_descriptor_refuted : ~ always (local_life false false 0) (fun _ live _ _ => live = []).
Proof. exact local_fd_refuted. Qed.
Print Assumptions C69_descriptor_refuted.
(** A store whose scan fails leaves its index. *)
Theorem C69_scan_refuted : ~ always (local_life false false 0) (fun r live _ _ => r = false -> count KMem live = 0).
Proof. exact local_scan_refuted. Qed.
Print Assumptions C69_scan_refuted.
(** Without the hypothesis the index can be freed twice. *)
Theorem C69_special_refuted : exists a, fst (local_life true true 1 (r_init a)) = UB.
Proof. exact (ex_intro _ odd_ans local_odd_run). Qed.
Print Assumptions C69_special_refuted.

(** ** C70: a whole run *)
(** Nothing is used after it was given back or given back twice, whatever fails.  A successful run leaves the
    descriptors of the index, the target and the local stores, the target and its index, and the lost contexts. *)
Theorem C70_run_leftovers hint args reqs : forallb (fun a => negb (is_odd a)) args = true ->
  always (run hint args reqs) (fun r live _ peak => peak <= 3 + n_local args /\
    (r = true -> count KFd live = 2 + n_local args /\ count KMem live = 1 + (if existsb is_target args then 1 else 0) /\
       count KCipher live = n_lost args /\ count KCurl live = 0 /\ count KZstd live = 0 /\ count KStack live = 0)).
Proof. exact (run_leftovers hint args reqs). Qed.
Print Assumptions C70_run_leftovers.
Example C70_met : forallb (fun a => negb (is_odd a)) args3 = true.
Proof. exact run_ok. Qed.
Example C70_run : let r := run 4 args3 reqs1 (r_init []) in
  (fst r, map o_kind (r_live (snd r)), r_peak (snd r), n_local args3) = (Ok true, [KFd; KMem; KFd; KMem; KFd], 4, 1).
Proof. exact run_run. Qed.
Theorem C70_special_refuted : exists hint args reqs a, fst (run hint args reqs (r_init a)) = UB.
Proof. exact (ex_intro _ 2 (ex_intro _ [ALocal true true] (ex_intro _ reqs1 (ex_intro _ run_odd_ans run_odd_run)))). Qed.
Print Assumptions C70_special_refuted.

(** A chain that cannot be made leaves nothing. *)
Theorem C70_chain_new hint : always (chain_new hint) (fun r live _ _ => match r with None => live = [] | Some _ => map o_kind live = [KMem; KMem] end).
Proof. exact (chain_new_leaves hint). Qed.
Print Assumptions C70_chain_new.

(** ** C71: the kernel hash *)
Theorem C71_kcapi_releases long n : always (kcapi long n) (fun _ live _ peak => live = [] /\ peak <= 2).
Proof. exact (kcapi_releases long n). Qed.
Print Assumptions C71_kcapi_releases.
Example C71_run : let r := kcapi false 3 (r_init [Yes; Yes; Yes; Yes; No 0]) in
  (fst r, length (r_gone (snd r)), r_peak (snd r)) = (Ok tt, 2, 2).
Proof. exact kcapi_run. Qed.

(** ** C72: the counters of a chain *)
(** With csn, and with casync when the command line is long enough for the number of stores, the number logged for a
    store is the number of chunks it delivered (as a 32-bit number). *)
Theorem C72_hits E argv w su w' chain tr i : init E argv w = (Ok (InitOk su), w') -> su_store su = Some chain ->
  is_csn argv = true \/ 2 * length (cmd_stores argv) + 2 <= length argv ->
  i < length chain -> nth_error (report (hint_of argv) (length chain) tr) i = Some (Some (delivered i tr mod 2 ^ 32)%N).
Proof. exact (report_right E argv w su w' chain tr i). Qed.
Print Assumptions C72_hits.
Example C72_met : chain_of (fst (init toy0 argv3' w13)) = Some 3.
Proof. exact init_csn. Qed.
Example C72_run : report (hint_of argv3') 3 trace3 = [Some 1%N; Some 0%N; Some 1%N].
Proof. exact report_csn. Qed.
(** casync with three options of the form --store=X: the counter of the third store is never initialised. *)
Theorem C72_casync_refuted : exists E argv w su w' chain tr i, init E argv w = (Ok (InitOk su), w') /\ su_store su = Some chain /\
  i < length chain /\ nth_error (report (hint_of argv) (length chain) tr) i = Some None.
Proof. exact report_refuted. Qed.
Print Assumptions C72_casync_refuted.
