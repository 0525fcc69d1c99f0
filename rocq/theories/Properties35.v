(** What is in the target when a run ends in whatever way (C101).  Statements only. *)
From Verif Require Import Base MainProg SpecBasic SpecEnv SpecStore SpecCaibx SpecMain SpecRun SpecReport SpecSource SpecDiary SpecOutline SpecFrontier PfFrontier Toy Ex1 Ex2 Ex4 Ex6 Ex15 Ex35.
Local Open Scope N_scope.

(** The target is what it was, with what the run noted as written laid over it in that order; of the last of it there may be only a beginning. *)
Theorem C101_replayed E argv w tino f n : sane E argv w -> good_index E argv w ->
  e_open_rw E (cmd_target argv) = Some tino -> the_index E argv w f n -> (forall i, (i < n)%nat -> 0 < ent_size f i) ->
  exists tr, run_trace w (snd (main E argv w)) tr /\ laid_by (w_files w tino) (diary tr) (w_files (snd (main E argv w)) tino).
Proof. exact (main_replayed E argv w tino f n). Qed.
Print Assumptions C101_replayed.
(** A beginning of the image, and then what the target held there before; or else there is a hash collision. *)
Theorem C101_frontier E argv w pieces tino : sane E argv w -> described E argv w pieces -> (forall P, In P pieces -> P <> []) -> e_open_rw E (cmd_target argv) = Some tino ->
  let w' := snd (main E argv w) in
  exists tr, run_trace w w' tr /\
    (frontier (concat pieces) (w_files w tino) (w_files w' tino) \/
     collision E pieces (fun y => (exists o D, In (TPut tino o D) tr /\ end_piece y D) \/ exists a l, end_piece y (slice a l (w_files w tino)))).
Proof. exact (main_frontier E argv w pieces tino). Qed.
Print Assumptions C101_frontier.
(** The same for any number of runs one after another, however each of them ends. *)
Theorem C101_attempts pieces : (forall P, In P pieces -> P <> []) -> forall l g g', attempts pieces g l g' ->
  frontier (concat pieces) g g' \/ exists a, In a l /\ collides pieces a.
Proof. exact (attempts_frontier pieces). Qed.
Print Assumptions C101_attempts.
(** What has been achieved is never lost. *)
Theorem C101_kept pieces p : (forall P, In P pieces -> P <> []) -> forall l g g', attempts pieces g l g' -> firstn p g = firstn p (concat pieces) ->
  firstn p g' = firstn p (concat pieces) \/ exists a, In a l /\ collides pieces a.
Proof. exact (attempts_kept pieces p). Qed.
Print Assumptions C101_kept.

(** A run that is killed in the middle of writing the third entry, and one after it. *)
Example C101_meets : sane toy0 csn_s w35 /\ good_index toy0 csn_s w35 /\ described toy0 csn_s w35 pieces_run /\ (forall P, In P pieces_run -> P <> []) /\
  e_open_rw toy0 (cmd_target csn_s) = Some 116%nat /\ the_index toy0 csn_s w35 (w_files w35 105%nat) 4 /\ (forall i, (i < 4)%nat -> 0 < ent_size (w_files w35 105%nat) i).
Proof. exact (conj sane35 (conj good35 (conj desc35 (conj nonempty35 (conj eq_refl (conj index35 sizes35)))))). Qed.
Example C101_run : let r := main toy0 csn_s w35 in fst r = Halt /\ w_files (snd r) 116%nat = g35 /\ diary (w_trace (snd r)) = [Asks id1; Puts 65 c1; Puts 145 c1].
Proof. exact run35. Qed.
Example C101_twice : attempts pieces_run t35 tries35 (w_files (at_end (mkAttempt toy0 csn_s (run_world l_run g35) 116)) 116%nat).
Proof. exact attempts35. Qed.
