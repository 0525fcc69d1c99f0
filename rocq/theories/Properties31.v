(** What the stores after the target are asked for, when the target is the first store (C97). *)
From Verif Require Import Base MainProg SpecBasic SpecEnv SpecStore SpecCaibx SpecMain SpecRun SpecOrder SpecReport SpecSource SpecResume SpecDiary SpecNew PfNew Toy Ex1 Ex2 Ex4 Ex6 Ex31.
Local Open Scope N_scope.

(** The first [k] entries are in the target already; the stores after the target are asked for the ids that occur for the first time in one of the
    other entries, in order, and for nothing else. *)
Theorem C97_new E b argv w w' tino f n : sane E argv w -> good_index E argv w -> (b = true -> hash_reliable E w) -> error_free (w_io w) -> ~ In false (w_alloc w) ->
  nth_error (cmd_stores argv) 0 = Some (cmd_target argv) ->
  e_open_rw E (cmd_target argv) = Some tino -> the_index E argv w f n -> (forall i, (i < n)%nat -> 0 < ent_size f i) -> main E argv w = (Ok 0, w') ->
  exists k tr, (k <= n)%nat /\ run_trace w w' tr /\ diary tr = to_do f k n (w_files w' tino) /\ runs (passed_on tr) = new_ids f k n /\
    (length (cmd_stores argv) = 2%nat -> passed_on tr = new_ids f k n) /\
    (forall j, (j < k)%nat -> holds E b f j (w_files w tino)) /\ (b = true -> (k < n)%nat -> ~ holds E true f k (w_files w tino)).
Proof. exact (main_new E b argv w w' tino f n). Qed.
Print Assumptions C97_new.
(** The same in terms of the image. *)
Theorem C97_image E argv w w' tino pieces : sane E argv w -> described E argv w pieces -> (forall P, In P pieces -> P <> []) -> error_free (w_io w) -> ~ In false (w_alloc w) ->
  nth_error (cmd_stores argv) 0 = Some (cmd_target argv) -> e_open_rw E (cmd_target argv) = Some tino -> main E argv w = (Ok 0, w') ->
  collision E pieces (fun y => exists a l, end_piece y (slice a l (w_files w' tino))) \/
  exists k tr, (k <= length pieces)%nat /\ run_trace w w' tr /\ runs (passed_on tr) = novel E (map (e_H E) (firstn k pieces)) (skipn k pieces) /\
    (length (cmd_stores argv) = 2%nat -> passed_on tr = novel E (map (e_H E) (firstn k pieces)) (skipn k pieces)) /\
    (w_files w tino = [] -> k = 0%nat) /\ (hash_reliable E w -> (k < length pieces)%nat -> ~ begun_with (w_files w tino) (firstn (S k) pieces)).
Proof. exact (main_novel E argv w w' tino pieces). Qed.
Print Assumptions C97_image.
(** With an empty target and one store after it: every chunk of the image is requested there exactly once. *)
Theorem C97_once E argv w w' tino pieces : sane E argv w -> described E argv w pieces -> (forall P, In P pieces -> P <> []) -> error_free (w_io w) -> ~ In false (w_alloc w) ->
  nth_error (cmd_stores argv) 0 = Some (cmd_target argv) -> length (cmd_stores argv) = 2%nat -> e_open_rw E (cmd_target argv) = Some tino -> w_files w tino = [] -> main E argv w = (Ok 0, w') ->
  collision E pieces (fun y => exists a l, end_piece y (slice a l (w_files w' tino))) \/
  exists tr, run_trace w w' tr /\ NoDup (passed_on tr) /\ forall d, In d (passed_on tr) <-> In d (map (e_H E) pieces).
Proof. exact (main_all_once E argv w w' tino pieces). Qed.
Print Assumptions C97_once.

(** An image whose third piece equals its first, an empty target and one store besides it. *)
Example C97_meets : sane toy0 csn_ts w31 /\ good_index toy0 csn_ts w31 /\ hash_reliable toy0 w31 /\ error_free (w_io w31) /\ ~ In false (w_alloc w31) /\
  nth_error (cmd_stores csn_ts) 0 = Some (cmd_target csn_ts) /\ length (cmd_stores csn_ts) = 2%nat /\ e_open_rw toy0 (cmd_target csn_ts) = Some 116%nat /\ w_files w31 116%nat = [] /\
  the_index toy0 csn_ts w31 (w_files w31 105%nat) 3 /\ (forall i, (i < 3)%nat -> 0 < ent_size (w_files w31 105%nat) i) /\
  described toy0 csn_ts w31 pieces31 /\ (forall P, In P pieces31 -> P <> []).
Proof. exact meets31. Qed.
Example C97_run : let r := main toy0 csn_ts w31 in fst r = Ok 0 /\ passed_on (w_trace (snd r)) = [id1; id2].
Proof. exact run31. Qed.
Example C97_ids : novel toy0 [] pieces31 = [id1; id2] /\ new_ids (w_files w31 105%nat) 0 3 = [id1; id2].
Proof. exact novel31. Qed.
