(** Property C86: each chunk from some store.  Statements only. *)
From Verif Require Import Base Lib SpecBasic SpecHttp SpecCaibx SpecMain SpecRun SpecAvail SpecDelta SpecSupply Caibx StoreHttp Chain MainProg PfIndex PfAvail PfDelta PfSupply PfStart Toy Ex1 Ex2 Ex4 Ex5 Ex6 Ex8 Ex9 Ex19 Ex23.
Local Open Scope N_scope.

(** A run whose stores together supply every chunk of the image does not report failure once it is set up: no single store
    needs to have all of them. *)
Theorem C86_no_failure E argv w pieces iino p n su w1 c : sane E argv w -> described E argv w pieces -> (forall P, In P pieces -> 0 < blen P <= BUF_SIZE) ->
  error_free (w_io w) -> w_alloc w = [] -> hash_reliable E w -> (forall ino, e_open_rw E (cmd_target argv) = Some ino -> has_room E w ino (blen (concat pieces))) ->
  e_open E (cmd_index argv) = Some iino -> valid_index (w_files w iino) p n ->
  (forall P, In P pieces -> exists arg, In arg (cmd_stores argv) /\ supplies E w (cmd_target argv) p pieces arg P) ->
  init E argv w = (Ok (InitOk su), w1) -> fst (main E argv w) = Ok c ->
  c = 0 \/ exists tr, run_trace w (snd (main E argv w)) tr /\ false_answer E pieces tr.
Proof. exact (supplied_no_failure E argv w pieces iino p n su w1 c). Qed.
Print Assumptions C86_no_failure.

(** It does succeed, given enough transfers, if hashes are computed in software and the indices of local stores describe them. *)
Theorem C86_succeeds E argv w pieces iino p n su w1 : sane E argv w -> described E argv w pieces -> (forall P, In P pieces -> 0 < blen P <= BUF_SIZE) ->
  error_free (w_io w) -> w_alloc w = [] -> hash_reliable E w -> (forall ino, e_open_rw E (cmd_target argv) = Some ino -> has_room E w ino (blen (concat pieces))) ->
  e_open E (cmd_index argv) = Some iino -> valid_index (w_files w iino) p n ->
  (forall P, In P pieces -> exists arg, In arg (cmd_stores argv) /\ supplies E w (cmd_target argv) p pieces arg P) ->
  init E argv w = (Ok (InitOk su), w1) -> w_kcapi w1 = false ->
  (forall a path ip, In a (cmd_stores argv) -> classify_arg (cmd_target argv) a = ArgLocal path ip -> ip = None \/ exists id, seeded E w (cmd_target argv) p a id) ->
  (enough (length pieces) (length (cmd_stores argv)) <= transfers (w_io w1))%nat ->
  fst (main E argv w) = Ok 0 \/ exists tr, run_trace w (snd (main E argv w)) tr /\ false_answer E pieces tr.
Proof. exact (supplied_succeeds E argv w pieces iino p n su w1). Qed.
Print Assumptions C86_succeeds.

(** From the command line on: csn with the target, servers, scanned files and files with indices as its stores. *)
Theorem C86_end_to_end E argv w pieces ino p n tino : sane E argv w -> described E argv w pieces -> pieces <> [] -> (forall P, In P pieces -> 0 < blen P <= BUF_SIZE) ->
  is_csn argv = true -> (4 <= length argv)%nat -> e_getenv E (bs "CSN_KCAPI_DRIVER") = None -> w_kcapi w = false -> e_http_ok E = true ->
  e_open E (cmd_index argv) = Some ino -> valid_index (w_files w ino) p n -> e_kind E ino <> KOther ->
  e_open_rw E (cmd_target argv) = Some tino -> has_room E w tino (blen (concat pieces)) ->
  Forall (usable E w (cmd_target argv) p) (cmd_stores argv) ->
  (forall P, In P pieces -> exists arg, In arg (cmd_stores argv) /\ supplies E w (cmd_target argv) p pieces arg P) ->
  w_alloc w = [] -> error_free (w_io w) -> (start_cost E argv w + enough (length pieces) (length (cmd_stores argv)) <= transfers (w_io w))%nat ->
  fst (main E argv w) = Ok 0 \/ exists tr, run_trace w (snd (main E argv w)) tr /\ false_answer E pieces tr.
Proof. exact (supplied_end_to_end E argv w pieces ino p n tino). Qed.
Print Assumptions C86_end_to_end.

(** csn with an older image that has one of the two chunks, and a server that has the other one; [w19 n] allows [n] transfers. *)
Example C86_meets_run n : sane E23 argv19 (w19 n) /\ described E23 argv19 (w19 n) pieces9 /\ valid_index (w_files (w19 n) 105%nat) p_ex 3.
Proof. exact (conj (sane23 n) (conj (described23 n) (valid19 n))). Qed.
Example C86_meets_schedule n : error_free (w_io (w19 n)) /\ w_alloc (w19 n) = [] /\ w_kcapi (w19 n) = false /\ transfers (w_io (w19 n)) = n.
Proof. exact (quiet23 n). Qed.
Example C86_meets_room n ino : e_open_rw E23 (cmd_target argv19) = Some ino -> has_room E23 (w19 n) ino (blen (concat pieces9)).
Proof. exact (room23 n ino). Qed.
Example C86_meets_supply n P : In P pieces9 -> exists arg, In arg (cmd_stores argv19) /\ supplies E23 (w19 n) (cmd_target argv19) p_ex pieces9 arg P.
Proof. exact (supplied23 n P). Qed.
Example C86_meets_usable n : Forall (usable E23 (w19 n) (cmd_target argv19) p_ex) (cmd_stores argv19).
Proof. exact (usable23 n). Qed.
Example C86_meets_usable_scan : Forall (usable toy0 w_run (cmd_target csn_st) p_ex) (cmd_stores csn_st).
Proof. exact usable_s. Qed.
Example C86_meets_cost n : N.of_nat (start_cost E23 argv19 (w19 n)) = 7578.
Proof. exact (cost23 n). Qed.
Example C86_meets_init n : 7578 <= N.of_nat n -> exists su w1, init E23 argv19 (w19 n) = (Ok (InitOk su), w1) /\ w_kcapi w1 = false /\ N.of_nat n - 7578 <= N.of_nat (transfers (w_io w1)).
Proof. exact (init23 n). Qed.
(** Neither store suffices alone. *)
Example C86_run : let r := main E23 argv19 (w19 60) in
  (fst r, w_files (snd r) 116%nat, fst (main E23 [bs "csn"; bs "i"; bs "t"; site] (w19 60)), fst (main E23 [bs "csn"; bs "i"; bs "t"; arg19] (w19 60))) = (Ok 0, concat pieces9, Ok 1, Ok 1).
Proof. exact run23. Qed.
