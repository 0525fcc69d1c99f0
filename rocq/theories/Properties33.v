(** What a run has asked for and written, however it ends (C99). *)
From Verif Require Import Base MainProg SpecBasic SpecEnv SpecStore SpecCaibx SpecMain SpecRun SpecReport SpecSource SpecDiary SpecOutline PfOutline Toy Ex1 Ex2 Ex4 Ex6 Ex15 Ex33.
Local Open Scope N_scope.

(** The first [k] entries are in the target already.  Whether the run succeeds, fails, aborts or is killed, what it has asked for and written
    are the first steps of what is to be done for the others. *)
Theorem C99_outline E b argv w tino f n : sane E argv w -> good_index E argv w -> (b = true -> hash_reliable E w) ->
  e_open_rw E (cmd_target argv) = Some tino -> the_index E argv w f n -> (forall i, (i < n)%nat -> 0 < ent_size f i) ->
  exists k tr, (k <= n)%nat /\ run_trace w (snd (main E argv w)) tr /\ begins (map outline (diary tr)) (steps f k n) /\ forall j, (j < k)%nat -> holds E b f j (w_files w tino).
Proof. exact (main_outline E b argv w tino f n). Qed.
Print Assumptions C99_outline.
Theorem C99_fresh E argv w tino f n : sane E argv w -> good_index E argv w ->
  e_open_rw E (cmd_target argv) = Some tino -> w_files w tino = [] -> the_index E argv w f n -> (forall i, (i < n)%nat -> 0 < ent_size f i) ->
  exists tr, run_trace w (snd (main E argv w)) tr /\ begins (map outline (diary tr)) (steps f 0 n).
Proof. exact (main_outline_fresh E argv w tino f n). Qed.
Print Assumptions C99_fresh.
(** The data is written without gaps and going forward, from within the target's old contents or its end to no further than the end of the image. *)
Theorem C99_gapless E argv w tino f n : sane E argv w -> good_index E argv w ->
  e_open_rw E (cmd_target argv) = Some tino -> the_index E argv w f n -> (forall i, (i < n)%nat -> 0 < ent_size f i) ->
  exists k tr, (k <= n)%nat /\ run_trace w (snd (main E argv w)) tr /\ gapless (ent_start f k) (places (diary tr)) /\ ent_start f k <= blen (w_files w tino) /\
    ent_start f k + fold_right N.add 0 (map snd (places (diary tr))) <= ent_start f n.
Proof. exact (main_gapless E argv w tino f n). Qed.
Print Assumptions C99_gapless.

(** A run that fails since the store lacks the third chunk. *)
Example C99_meets : sane toy0 csn_s w33 /\ good_index toy0 csn_s w33 /\ hash_reliable toy0 w33 /\ e_open_rw toy0 (cmd_target csn_s) = Some 116%nat /\
  the_index toy0 csn_s w33 (w_files w33 105%nat) 4 /\ (forall i, (i < 4)%nat -> 0 < ent_size (w_files w33 105%nat) i).
Proof. exact meets33. Qed.
Example C99_run : let r := main toy0 csn_s w33 in fst r = Ok 1 /\ diary (w_trace (snd r)) = [Asks id1; Puts 65 c1; Asks id_none].
Proof. exact run33. Qed.
Example C99_steps : steps (w_files w33 105%nat) 1 4 = [Ask id1; Write 65 80; Ask id_none; Write 145 80; Ask id3; Write 225 15].
Proof. exact steps33. Qed.
