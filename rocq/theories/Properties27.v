(** Property C93: where the data comes from.  Statements only. *)
From Verif Require Import Base Lib SpecBasic SpecEnv SpecStore SpecHttp SpecCaibx SpecMain SpecRun SpecAvail SpecSource Utils Caibx StoreHttp Chain MainProg PfSource3 Toy Ex8 Ex9 Ex26 Ex28.
Local Open Scope N_scope.

(** Whatever becomes of a run, every byte of the target is the old one, or belongs to data that a server, the file of a local store or the target itself
    had for the entry at whose place it is. *)
Theorem C93_sources E b argv w tino : sane E argv w -> good_index E argv w -> (b = true -> hash_reliable E w) -> e_open_rw E (cmd_target argv) = Some tino ->
  sourced E b argv w tino (snd (main E argv w)).
Proof. exact (main_sourced E b argv w tino). Qed.
Print Assumptions C93_sources.
(** After success this holds for what the target contains at the place of every entry, as a whole. *)
Theorem C93_success E b argv w tino w' f n j : sane E argv w -> good_index E argv w -> (b = true -> hash_reliable E w) -> e_open_rw E (cmd_target argv) = Some tino ->
  main E argv w = (Ok 0, w') -> the_index E argv w f n -> (j < n)%nat -> 0 < ent_size f j ->
  comes_from E b argv w f (w_files w tino) n (ent_id f j) (ent_slice f j (w_files w' tino)).
Proof. exact (main_from E b argv w tino w' f n j). Qed.
Print Assumptions C93_success.
(** No success if a chunk is nowhere to be had. *)
Theorem C93_unavailable E argv w tino f n j : sane E argv w -> good_index E argv w -> hash_reliable E w -> e_open_rw E (cmd_target argv) = Some tino ->
  the_index E argv w f n -> (j < n)%nat -> 0 < ent_size f j ->
  (forall D, comes_from E true argv w f (w_files w tino) n (ent_id f j) D -> length D = N.to_nat (ent_size f j) -> e_H E D <> ent_id f j) ->
  fst (main E argv w) <> Ok 0.
Proof. exact (main_unavailable E argv w tino f n j). Qed.
Print Assumptions C93_unavailable.
(** A server that only has [P] for an id can give nothing else for it. *)
Theorem C93_only E base key L id P D : only_has E base key id P -> (length P <= L)%nat -> gave E base key L id D -> D = P.
Proof. exact (gave_other E base key L id P D). Qed.
Print Assumptions C93_only.
(** test_chunk_corruption, for every image and any number of stores: one chunk is corrupted or missing on all servers, not part of a local store and not
    found at the beginning of the target. *)
Theorem C93_corrupted E argv w tino f n j : sane E argv w -> good_index E argv w -> hash_reliable E w -> e_open_rw E (cmd_target argv) = Some tino ->
  the_index E argv w f n -> (j < n)%nat -> 0 < ent_size f j ->
  (forall base key, http_store E argv w base key -> exists P, only_has E base key (ent_id f j) P /\ blen P <= BUF_SIZE /\ e_H E P <> ent_id f j) ->
  (forall ino before D after, local_store E argv ino -> w_files w ino = before ++ D ++ after -> length D = N.to_nat (ent_size f j) -> e_H E D <> ent_id f j) ->
  (forall i, (i < n)%nat -> ent_id f i = ent_id f j -> exists k, (k <= i)%nat /\ ~ holds E true f k (w_files w tino)) ->
  fst (main E argv w) <> Ok 0.
Proof. exact (main_corrupted E argv w tino f n j). Qed.
Print Assumptions C93_corrupted.

(** The image of C90's example (three pieces; the local store has the first and the last one) with a server whose copy of the second piece
    has another first byte; and with the honest server. *)
Example C93_meets n : (sane E28 argv26 (w90 n) /\ good_index E28 argv26 (w90 n) /\ hash_reliable E28 (w90 n) /\ e_open_rw E28 (cmd_target argv26) = Some 116%nat) /\
  (the_index E28 argv26 (w90 n) f28 3 /\ 0 < ent_size f28 1) /\
  (forall base key, http_store E28 argv26 (w90 n) base key -> exists P, only_has E28 base key (ent_id f28 1) P /\ blen P <= BUF_SIZE /\ e_H E28 P <> ent_id f28 1) /\
  (forall ino before D after, local_store E28 argv26 ino -> w_files (w90 n) ino = before ++ D ++ after -> length D = N.to_nat (ent_size f28 1) -> e_H E28 D <> ent_id f28 1) /\
  (forall i, (i < 3)%nat -> ent_id f28 i = ent_id f28 1 -> exists k, (k <= i)%nat /\ ~ holds E28 true f28 k (w_files (w90 n) 116%nat)).
Proof. exact (corrupted28 n). Qed.
Example C93_honest n : sane (shop [x2]) argv26 (w90 n) /\ good_index (shop [x2]) argv26 (w90 n) /\ the_index (shop [x2]) argv26 (w90 n) f28 3 /\
  (exists w', main (shop [x2]) argv26 (w90 60) = (Ok 0, w')) /\ comes_from (shop [x2]) true argv26 (w90 n) f28 (w_files (w90 n) 116%nat) 3 (ent_id f28 0) x1.
Proof. exact (honest28 n). Qed.
