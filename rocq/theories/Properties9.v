(** Property C05: availability.  Statements only. *)
From Verif Require Import Base Lib SpecBasic SpecHttp SpecCaibx SpecMain SpecRun SpecAvail Caibx StoreHttp Chain MainProg PfIndex PfAvail Toy Ex2 Ex9.
Local Open Scope N_scope.

(** A run of csn or casync with a faithful server among its stores does not report failure once it is set up,
    unless a store answered with a string that has the hash of a piece of the image and another length. *)
Theorem C05_no_failure E argv w pieces arg su w1 c : sane E argv w -> described E argv w pieces -> (forall P, In P pieces -> 0 < blen P <= BUF_SIZE) ->
  error_free (w_io w) -> w_alloc w = [] -> hash_reliable E w -> (forall ino, e_open_rw E (cmd_target argv) = Some ino -> has_room E w ino (blen (concat pieces))) ->
  In arg (cmd_stores argv) -> classify_arg (cmd_target argv) arg = ArgHttp arg ->
  (forall base key P, store_denotes E w arg base key -> In P pieces -> has_chunk E base key P) ->
  init E argv w = (Ok (InitOk su), w1) -> fst (main E argv w) = Ok c ->
  c = 0 \/ exists tr, run_trace w (snd (main E argv w)) tr /\ false_answer E pieces tr.
Proof. exact (no_failure E argv w pieces arg su w1 c). Qed.
Print Assumptions C05_no_failure.

(** It does succeed, given enough transfers, if hashes are computed in software and no local store has an index of its own. *)
Theorem C05_succeeds E argv w pieces arg su w1 : sane E argv w -> described E argv w pieces -> (forall P, In P pieces -> 0 < blen P <= BUF_SIZE) ->
  error_free (w_io w) -> w_alloc w = [] -> hash_reliable E w -> (forall ino, e_open_rw E (cmd_target argv) = Some ino -> has_room E w ino (blen (concat pieces))) ->
  In arg (cmd_stores argv) -> classify_arg (cmd_target argv) arg = ArgHttp arg ->
  (forall base key P, store_denotes E w arg base key -> In P pieces -> has_chunk E base key P) ->
  init E argv w = (Ok (InitOk su), w1) -> w_kcapi w1 = false ->
  (forall a path ip, In a (cmd_stores argv) -> classify_arg (cmd_target argv) a = ArgLocal path ip -> ip = None) ->
  (enough (length pieces) (length (cmd_stores argv)) <= transfers (w_io w1))%nat ->
  fst (main E argv w) = Ok 0 \/ exists tr, run_trace w (snd (main E argv w)) tr /\ false_answer E pieces tr.
Proof. exact (succeeds E argv w pieces arg su w1). Qed.
Print Assumptions C05_succeeds.

(** From the command line on: csn with the target and servers as its stores. *)
Theorem C05_end_to_end E argv w pieces arg ino p n tino : sane E argv w -> described E argv w pieces -> pieces <> [] -> (forall P, In P pieces -> 0 < blen P <= BUF_SIZE) ->
  is_csn argv = true -> (4 <= length argv)%nat -> e_getenv E (bs "CSN_KCAPI_DRIVER") = None -> w_kcapi w = false -> e_http_ok E = true ->
  e_open E (cmd_index argv) = Some ino -> valid_index (w_files w ino) p n -> e_kind E ino <> KOther ->
  e_open_rw E (cmd_target argv) = Some tino -> has_room E w tino (blen (concat pieces)) ->
  Forall (remote (cmd_target argv)) (cmd_stores argv) -> In arg (cmd_stores argv) -> classify_arg (cmd_target argv) arg = ArgHttp arg ->
  (forall base key P, store_denotes E w arg base key -> In P pieces -> has_chunk E base key P) ->
  w_alloc w = [] -> error_free (w_io w) -> (104 + enough (length pieces) (length (cmd_stores argv)) <= transfers (w_io w))%nat ->
  fst (main E argv w) = Ok 0 \/ exists tr, run_trace w (snd (main E argv w)) tr /\ false_answer E pieces tr.
Proof. exact (end_to_end E argv w pieces arg ino p n tino). Qed.
Print Assumptions C05_end_to_end.

(** csn with a server that fails twice for every chunk it delivers; [w9 n] allows [n] transfers. *)
Example C05_meets_run n : sane E9 argv9 (w9 n) /\ described E9 argv9 (w9 n) pieces9 /\ (forall P, In P pieces9 -> 0 < blen P <= BUF_SIZE).
Proof. exact (conj (sane9 n) (conj (described9 n) sizes9)). Qed.
Example C05_meets_schedule n : error_free (w_io (w9 n)) /\ w_alloc (w9 n) = [] /\ w_kcapi (w9 n) = false /\ transfers (w_io (w9 n)) = n.
Proof. exact (quiet9 n). Qed.
Example C05_meets_room n ino : e_open_rw E9 (cmd_target argv9) = Some ino -> has_room E9 (w9 n) ino (blen (concat pieces9)).
Proof. exact (room9 n ino). Qed.
Example C05_meets_stores : Forall (remote (cmd_target argv9)) (cmd_stores argv9) /\ In site (cmd_stores argv9) /\ classify_arg (cmd_target argv9) site = ArgHttp site.
Proof. exact (conj remote9 arg9). Qed.
Example C05_meets_server w base key P : store_denotes E9 w site base key -> In P pieces9 -> has_chunk E9 base key P.
Proof. exact (has9 w base key P). Qed.
Example C05_meets_denotes w : store_denotes E9 w site site None.
Proof. exact (denotes_site w). Qed.
Example C05_meets_index n : valid_index (w_files (w9 n) 105%nat) p_ex 3.
Proof. exact (valid9 n). Qed.
Example C05_meets_init n : (104 <= n)%nat -> exists su w1, init E9 argv9 (w9 n) = (Ok (InitOk su), w1) /\ w_kcapi w1 = false /\ (n - 104 <= transfers (w_io w1))%nat.
Proof. exact (init9 n). Qed.
Example C05_run : let r := main E9 argv9 (w9 400) in (fst r, w_files (snd r) 116%nat, w_nperf (snd r)) = (Ok 0, concat pieces9, 6%nat).
Proof. exact run9. Qed.
