(** What a successful run asks for and writes (C96). *)
From Verif Require Import Base MainProg SpecBasic SpecEnv SpecStore SpecCaibx SpecMain SpecRun SpecReport SpecSource SpecResume SpecDiary PfDiary Toy Ex1 Ex2 Ex4  Ex6 Ex15 Ex30.
Local Open Scope N_scope.

(** The first [k] entries are in the target already, and no more of them if this can be told; each of the others is asked for, unless it repeats
    its predecessor, and written to its place, in order, and nothing else is asked for or written. *)
Theorem C96_diary E b argv w w' tino f n : sane E argv w -> good_index E argv w -> (b = true -> hash_reliable E w) ->
  e_open_rw E (cmd_target argv) = Some tino -> the_index E argv w f n -> (forall i, (i < n)%nat -> 0 < ent_size f i) -> main E argv w = (Ok 0, w') ->
  exists k tr, (k <= n)%nat /\ run_trace w w' tr /\ diary tr = to_do f k n (w_files w' tino) /\ (forall j, (j < k)%nat -> holds E b f j (w_files w tino)) /\
    (b = true -> error_free (w_io w) -> (k < n)%nat -> ~ holds E true f k (w_files w tino)).
Proof. exact (main_diary E b argv w w' tino f n). Qed.
Print Assumptions C96_diary.
Theorem C96_fresh E argv w w' tino f n : sane E argv w -> good_index E argv w ->
  e_open_rw E (cmd_target argv) = Some tino -> w_files w tino = [] -> the_index E argv w f n -> (forall i, (i < n)%nat -> 0 < ent_size f i) -> main E argv w = (Ok 0, w') ->
  exists tr, run_trace w w' tr /\ diary tr = to_do f 0 n (w_files w' tino).
Proof. exact (main_diary_fresh E argv w w' tino f n). Qed.
Print Assumptions C96_fresh.
(** The same in terms of the image. *)
Theorem C96_image E argv w w' tino pieces : sane E argv w -> described E argv w pieces -> (forall P, In P pieces -> P <> []) -> e_open_rw E (cmd_target argv) = Some tino -> main E argv w = (Ok 0, w') ->
  collision E pieces (fun y => exists a l, end_piece y (slice a l (w_files w' tino))) \/
  exists k tr, (k <= length pieces)%nat /\ run_trace w w' tr /\ diary tr = plan E None (blen (concat (firstn k pieces))) (skipn k pieces) /\
    (w_files w tino = [] -> k = 0%nat) /\
    (hash_reliable E w -> error_free (w_io w) -> (k < length pieces)%nat -> ~ begun_with (w_files w tino) (firstn (S k) pieces)).
Proof. exact (main_plan E argv w w' tino pieces). Qed.
Print Assumptions C96_image.

(** An image of four pieces, the first of which is in the target and the next two of which are equal. *)
Example C96_meets : sane toy0 csn_s w_run /\ good_index toy0 csn_s w_run /\ hash_reliable toy0 w_run /\ e_open_rw toy0 (cmd_target csn_s) = Some 116%nat /\
  the_index toy0 csn_s w_run (w_files w_run 105%nat) 4 /\ (forall i, (i < 4)%nat -> 0 < ent_size (w_files w_run 105%nat) i) /\
  described toy0 csn_s w_run pieces_run /\ (forall P, In P pieces_run -> P <> []) /\ error_free (w_io w_run).
Proof. exact (conj run_sane (conj run_good (conj (or_introl (conj eq_refl eq_refl)) (conj eq_refl (conj index30 (conj summary_sizes (conj run_desc (conj pieces30 io30)))))))). Qed.
Example C96_run : let r := main toy0 csn_s w_run in fst r = Ok 0 /\ diary (w_trace (snd r)) = [Asks id1; Puts 65 c1; Puts 145 c1; Asks id3; Puts 225 c3].
Proof. exact run30. Qed.
Example C96_plan : plan toy0 None 65 [c1; c1; c3] = [Asks id1; Puts 65 c1; Puts 145 c1; Asks id3; Puts 225 c3].
Proof. exact plan30. Qed.
