(** How big chunks may be (C104).  Statements only. *)
From Verif Require Import Base Lib SpecBasic SpecEnv SpecStore SpecHttp SpecChunker SpecCaibx SpecMain SpecRun SpecSource SpecAvail SpecGen SpecBig Caibx Chunker StoreHttp Chain MainProg PfIndex PfAvail PfBig Toy Ex2 Ex6 Ex9 Ex38.
Local Open Scope N_scope.

(** Chunks of up to 256 KiB are synchronised ... *)
Theorem C104_fits E argv w pieces arg ino p n tino : sane E argv w -> described E argv w pieces -> pieces <> [] -> (forall P, In P pieces -> 0 < blen P <= largest) ->
  is_csn argv = true -> (4 <= length argv)%nat -> e_getenv E (bs "CSN_KCAPI_DRIVER") = None -> w_kcapi w = false -> e_http_ok E = true ->
  e_open E (cmd_index argv) = Some ino -> valid_index (w_files w ino) p n -> e_kind E ino <> KOther ->
  e_open_rw E (cmd_target argv) = Some tino -> has_room E w tino (blen (concat pieces)) ->
  Forall (remote (cmd_target argv)) (cmd_stores argv) -> In arg (cmd_stores argv) -> classify_arg (cmd_target argv) arg = ArgHttp arg ->
  (forall base key P, store_denotes E w arg base key -> In P pieces -> has_chunk E base key P) ->
  w_alloc w = [] -> error_free (w_io w) -> (104 + enough (length pieces) (length (cmd_stores argv)) <= transfers (w_io w))%nat ->
  fst (main E argv w) = Ok 0 \/ exists tr, run_trace w (snd (main E argv w)) tr /\ false_answer E pieces tr.
Proof. exact (end_to_end E argv w pieces arg ino p n tino). Qed.
Print Assumptions C104_fits.
(** ... which are all that casync makes with its default sizes or smaller ones. *)
Theorem C104_cut p D data P : p_max p <= largest -> In P (chunks p D data) -> 0 < blen P <= largest.
Proof. exact (cut_fits p D data P). Qed.
Print Assumptions C104_cut.
(** A run over an index that lists a bigger one never succeeds, in a defined way, and writes nothing at or behind its place. *)
Theorem C104_stops E argv w f n i : sane E argv w -> good_index E argv w -> the_index E argv w f n -> (i < n)%nat -> largest < ent_size f i ->
  fst (main E argv w) <> Ok 0 /\ fst (main E argv w) <> UB /\ exists tr, run_trace w (snd (main E argv w)) tr /\ all_before (ent_start f i) tr.
Proof. exact (big_stops E argv w f n i). Qed.
Print Assumptions C104_stops.

(** The example of C05 has such chunks (see there for the other hypotheses). *)
Example C104_meets_fits n : sane E9 argv9 (w9 n) /\ described E9 argv9 (w9 n) pieces9 /\ (forall P, In P pieces9 -> 0 < blen P <= largest).
Proof. exact (conj (sane9 n) (conj (described9 n) sizes9)). Qed.
Example C104_meets_cut : (p_max p_default <= largest /\ p_max p_ex <= largest) /\ map blen (chunks p_ex 45 data_ex) = [80; 65; 15].
Proof. exact (conj cut38 chunks_ex). Qed.
Example C104_meets_stops : let w := run_world l38 [] in
  sane toy0 csn_s w /\ good_index toy0 csn_s w /\ the_index toy0 csn_s w f38 3 /\ ent_size f38 1 = largest + 1 /\ ent_start f38 1 = 65.
Proof. exact meets38. Qed.
