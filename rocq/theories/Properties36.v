(** What interrupted runs ask for and write together (C102).  Statements only. *)
From Verif Require Import Base MainProg SpecBasic SpecEnv SpecStore SpecCaibx SpecMain SpecRun SpecOrder SpecReport SpecSource SpecDiary SpecOutline SpecFrontier SpecRepeat PfRepeat Toy Ex1 Ex2 Ex4 Ex6 Ex15 Ex35 Ex36.
Local Open Scope N_scope.

(** The target holds the first [c] entries.  However the run ends, it then holds the first [c'], and the run has asked for and written no more
    than one entry in addition to those it completed. *)
Theorem C102_progress E argv w tino f n c : sane E argv w -> good_index E argv w -> hash_reliable E w -> error_free (w_io w) -> the_index E argv w f n ->
  e_open_rw E (cmd_target argv) = Some tino -> (forall i, (i < n)%nat -> 0 < ent_size f i <= BUF_SIZE) -> (c <= n)%nat -> prefix_present E f c (w_files w tino) ->
  exists tr c', run_trace w (snd (main E argv w)) tr /\ (c <= c' <= n)%nat /\ prefix_present E f c' (w_files (snd (main E argv w)) tino) /\
    (c + asks (diary tr) <= c' + 1)%nat /\ (c + puts (diary tr) <= c' + 1)%nat.
Proof. exact (attempt_step E argv w tino f n c). Qed.
Print Assumptions C102_progress.
(** Any number of runs together ask and write no more often than there are entries and runs. *)
Theorem C102_total H f n l g g' : (forall i, (i < n)%nat -> 0 < ent_size f i <= BUF_SIZE) -> continued H f n g l g' ->
  exists trs, Forall2 (fun a tr => run_trace (at_world a) (at_end a) tr) l trs /\
    (total asks (map diary trs) <= n + length l)%nat /\ (total puts (map diary trs) <= n + length l)%nat.
Proof. exact (continued_total H f n l g g'). Qed.
Print Assumptions C102_total.

(** A run that is killed in the middle of writing the third entry, and one after it. *)
Example C102_meets : continued toyH f36 4 t35 tries35 (w_files (at_end (mkAttempt toy0 csn_s (run_world l_run g35) 116)) 116%nat) /\
  (forall i, (i < 4)%nat -> 0 < ent_size f36 i <= BUF_SIZE) /\ prefix_present toy0 f36 1 t35.
Proof. exact (conj continued36 (conj sizes36 present36)). Qed.
Example C102_first : let r := main toy0 csn_s w35 in fst r = Halt /\ w_files (snd r) 116%nat = g35 /\ diary (w_trace (snd r)) = [Asks id1; Puts 65 c1; Puts 145 c1].
Proof. exact run35. Qed.
