(** The number of queries of a run (C107). *)
From Verif Require Import Base Lib Utils Log SpecLog LogSites Chunker Caibx StoreLocal StoreHttp Chain MainProg Queries
  SpecBasic SpecEnv SpecStore SpecCaibx SpecMain SpecRun SpecStats SpecReport SpecQueries PfCaibx PfSync PfQueries Toy Ex1 Ex2 Ex4 Ex6 Ex12 Ex15.
Local Open Scope N_scope.

Lemma result41 : fst (main_q toy0 csn_s w_run) = Ok (0, Some 2). Proof. vm_compute. reflexivity. Qed.
Lemma valid41 : exists p, valid_index (w_files w_run 105%nat) p 4.
Proof.
  pose proof run_sane as S. destruct run_eq as (w' & A & _). destruct (success_image toy0 csn_s w_run w' pieces_run S run_desc A) as (iino & tino & p & n & A1 & A2 & A3 & _).
  injection A1 as <-. destruct (run_desc 105%nat p n eq_refl A3) as (L & _). change (length pieces_run) with 4%nat in L. exists p. replace 4 with n by lia. exact A3.
Qed.
Lemma positive41 iino p n i : e_open toy0 (cmd_index csn_s) = Some iino -> valid_index (w_files w_run iino) p n -> (i < N.to_nat n)%nat -> 0 < ent_size (w_files w_run iino) i.
Proof.
  intros H V Hi. injection H as <-. destruct valid41 as (p' & V'). pose proof (valid_unique _ _ _ _ _ V V') as ->. apply summary_sizes. exact Hi.
Qed.
Lemma meets41 : sane toy0 csn_s w_run /\ good_index toy0 csn_s w_run /\ hash_reliable toy0 w_run /\
  (forall iino p n i, e_open toy0 (cmd_index csn_s) = Some iino -> valid_index (w_files w_run iino) p n -> (i < N.to_nat n)%nat -> 0 < ent_size (w_files w_run iino) i) /\
  exists w', main_q toy0 csn_s w_run = (Ok (0, Some 2), w').
Proof.
  split; [exact run_sane|]. split; [exact run_good|]. split; [left; split; reflexivity|]. split; [exact positive41|].
  pose proof result41 as R. destruct (main_q toy0 csn_s w_run) as [o w']. cbn [fst] in R. subst o. eauto.
Qed.
Definition site68 : site := INFO (bs "store.c") (bs "store_chain_free") 68 (bs "%u queries received by %s").
Lemma line41 : In site68 queries_sites /\ queries_line site68 false U_LOG_INFO (bs "store.c") 2 = Some (bs "INF store.c:store_chain_free:68 2 queries received by chain0" ++ NL).
Proof. split; [left; reflexivity|vm_compute; reflexivity]. Qed.
