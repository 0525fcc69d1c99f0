(** Witnesses for Properties16.v. *)
From Verif Require Import Base Lib Utils Discr Chunker Caibx Index StoreLocal Target StoreHttp Chain MainProg
  SpecBasic SpecEnv SpecChunker SpecCaibx SpecStore SpecHttp SpecMain SpecRun SpecMemory SpecProgress SpecCasync PfReadonly PfSync Toy Ex1 Ex2 Ex4 Ex6.
Local Open Scope N_scope.

(** *** Restarts: a run that gets only 14 transfers, and one that gets enough. *)
Definition fresh (f : nat -> bytes) (n : nat) : world := mkWorld f (repeat (IoN 1000) n) [] false [] 0 [].
Definition cut_run : world := fresh (w_files w_run) 14.
Definition next_run : world := fresh (w_files (snd (main toy0 csn_s cut_run))) 400.
Lemma fresh_fun f n : w_files (fresh f n) = f. Proof. reflexivity. Qed.
Lemma next_files : w_files next_run = w_files (snd (main toy0 csn_s cut_run)). Proof. unfold next_run. apply fresh_fun. Qed.
Lemma fresh_files f n i : w_files (fresh f n) i = f i. Proof. reflexivity. Qed.
Lemma fresh_io f n : error_free (w_io (fresh f n)).
Proof. apply Forall_forall. intros x Hx. apply repeat_spec in Hx. now subst. Qed.
Lemma toy_index ino : e_open toy0 (cmd_index csn_s) = Some ino -> ino = 105%nat. Proof. intros X. vm_compute in X. congruence. Qed.
Lemma toy_target ino : e_open_rw toy0 (cmd_target csn_s) = Some ino -> ino = 116%nat. Proof. intros X. vm_compute in X. congruence. Qed.
Lemma index_kept w : w_files (snd (main toy0 csn_s w)) 105%nat = w_files w 105%nat.
Proof. pose proof (main_only_target toy0 csn_s w) as (Q & _). apply Q. vm_compute. discriminate. Qed.
Lemma sane_later argv w w2 : sane toy0 argv w -> files_ok w2 -> (forall ino, e_open toy0 (cmd_index argv) = Some ino -> w_files w2 ino = w_files w ino) -> sane toy0 argv w2.
Proof. intros [A1 A2 A3 A4 A5 A6 A7 A8 A9] H Hi. constructor; auto. intros ino p n arg path X HV. rewrite (Hi ino X) in HV. eauto. Qed.
Lemma later_ok w g n : files_ok w -> w_files (snd (main toy0 csn_s w)) 116%nat = g -> bytes_ok g -> blen g < OFF_LIMIT -> files_ok (fresh (w_files (snd (main toy0 csn_s w))) n).
Proof.
  intros H R G1 G2 i. rewrite fresh_files. destruct (Nat.eq_dec i 116) as [->|Hne]; [rewrite R; auto|].
  pose proof (main_only_target toy0 csn_s w) as (Q & _). rewrite Q; [apply H|]. vm_compute. congruence.
Qed.
Definition two_results : (outcome N * bytes * nat * nat) * (outcome N * bytes * nat * nat) :=
  let r1 := main toy0 csn_s cut_run in let r2 := main toy0 csn_s (fresh (w_files (snd r1)) 400) in
  ((fst r1, w_files (snd r1) 116%nat, count is_asked (snd r1), count is_put (snd r1)), (fst r2, w_files (snd r2) 116%nat, count is_asked (snd r2), count is_put (snd r2))).
Lemma two_runs : two_results = ((Halt, firstn 145 (concat pieces_run), 1%nat, 2%nat), (Ok 0, concat pieces_run, 2%nat, 2%nat)).
Proof. vm_compute. reflexivity. Qed.
Lemma two_parts : let r1 := main toy0 csn_s cut_run in let r2 := main toy0 csn_s next_run in
  (fst r1 = Halt /\ w_files (snd r1) 116%nat = firstn 145 (concat pieces_run) /\ count is_put (snd r1) = 2%nat) /\
  (fst r2 = Ok 0 /\ w_files (snd r2) 116%nat = concat pieces_run /\ count is_put (snd r2) = 2%nat).
Proof.
  pose proof two_runs as R. unfold two_results in R. cbv zeta in *. fold next_run in R.
  destruct (main toy0 csn_s cut_run) as [c1 w1]. destruct (main toy0 csn_s next_run) as [c2 w2]. cbn [fst snd] in *. injection R as -> R1 R2 R3 -> R4 R5 R6. auto 10.
Qed.
Lemma cut_halts : fst (main toy0 csn_s cut_run) = Halt. Proof. exact (proj1 (proj1 two_parts)). Qed.
Lemma cut_target : w_files (snd (main toy0 csn_s cut_run)) 116%nat = firstn 145 (concat pieces_run). Proof. exact (proj1 (proj2 (proj1 two_parts))). Qed.
Lemma next_ok : fst (main toy0 csn_s next_run) = Ok 0. Proof. exact (proj1 (proj2 two_parts)). Qed.
Lemma next_target : w_files (snd (main toy0 csn_s next_run)) 116%nat = concat pieces_run. Proof. exact (proj1 (proj2 (proj2 two_parts))). Qed.
Lemma cut_sane : sane toy0 csn_s cut_run. Proof. apply (sane_later csn_s w_run); [exact run_sane| |reflexivity]. apply (sa_files _ _ _ run_sane). Qed.
Lemma next_sane : sane toy0 csn_s next_run.
Proof.
  apply (sane_later csn_s cut_run); [exact cut_sane| |].
  - eapply (later_ok cut_run); [apply (sa_files _ _ _ cut_sane)|exact cut_target|apply small_bytes; vm_compute; reflexivity|vm_compute; reflexivity].
  - intros ino X. apply toy_index in X. subst. unfold next_run. rewrite fresh_files. apply index_kept.
Qed.
Lemma next_index : w_files next_run 105%nat = w_files w_run 105%nat. Proof. unfold next_run. rewrite fresh_files, index_kept. reflexivity. Qed.
Lemma trace_exists w : w_trace w = [] -> run_trace w (snd (main toy0 csn_s w)) (w_trace (snd (main toy0 csn_s w))).
Proof. intros H. unfold run_trace. now rewrite H, app_nil_r. Qed.
(** Two runs, of which one was stopped; together they hand over four chunks. *)
Definition trs_ex : list (list tev) := [w_trace (snd (main toy0 csn_s cut_run)); w_trace (snd (main toy0 csn_s next_run))].
Lemma toy_run w tr trs stops g' : sane toy0 csn_s w -> w_kcapi w = false -> error_free (w_io w) -> w_files w 105%nat = w_files w_run 105%nat ->
  run_trace w (snd (main toy0 csn_s w)) tr -> restarts (e_H toy0) (w_files w_run 105%nat) (w_files (snd (main toy0 csn_s w)) 116%nat) trs stops g' ->
  restarts (e_H toy0) (w_files w_run 105%nat) (w_files w 116%nat) (tr :: trs) ((if succeeded (fst (main toy0 csn_s w)) then 0 else 1) + stops) g'.
Proof.
  intros A K B C D E. apply at_run; auto.
  - now apply toy_reliable.
  - intros i X. apply toy_index in X. subst i. exact C.
  - intros i X. apply toy_target in X. exact X.
Qed.
Lemma restarts_ex : restarts (e_H toy0) (w_files w_run 105%nat) (w_files w_run 116%nat) trs_ex 1 (w_files (snd (main toy0 csn_s next_run)) 116%nat).
Proof.
  pose proof cut_halts as A. pose proof next_ok as B.
  pose proof (toy_run cut_run (w_trace (snd (main toy0 csn_s cut_run))) [w_trace (snd (main toy0 csn_s next_run))] 0 (w_files (snd (main toy0 csn_s next_run)) 116%nat)) as H1.
  pose proof (toy_run next_run (w_trace (snd (main toy0 csn_s next_run))) [] 0 (w_files (snd (main toy0 csn_s next_run)) 116%nat)) as H2.
  rewrite A in H1. rewrite B in H2. cbn [succeeded N.eqb N.add] in H1, H2. apply H1; [exact cut_sane|reflexivity|apply fresh_io|reflexivity|now apply trace_exists|].
  specialize (H2 next_sane eq_refl (fresh_io _ _) next_index (trace_exists next_run eq_refl) (at_none _ _ _)). rewrite next_files in H2. exact H2.
Qed.
Lemma count_total tr : total put_ev tr = N.of_nat (length (filter is_put tr)).
Proof. induction tr as [|ev tr IH]; [reflexivity|]. cbn [total filter]. rewrite IH. destruct ev; cbn [put_ev is_put length]; lia. Qed.
Lemma total_app c a b : total c (a ++ b) = total c a + total c b.
Proof. induction a as [|x a IH]; cbn [app total]; [reflexivity|]. rewrite IH. lia. Qed.
Lemma puts_two w1 w2 : count is_put w1 = 2%nat -> count is_put w2 = 2%nat -> total put_ev (concat [w_trace w1; w_trace w2]) = 4.
Proof. unfold count. intros A B. cbn [concat]. rewrite !total_app. cbn [total]. rewrite !count_total, A, B. reflexivity. Qed.
Lemma restarts_puts : total put_ev (concat trs_ex) = 4.
Proof. exact (puts_two _ _ (proj2 (proj2 (proj1 two_parts))) (proj2 (proj2 (proj2 two_parts)))). Qed.
Lemma run_index_valid : valid_index (w_files w_run 105%nat) p_ex 4.
Proof. unfold w_run. rewrite run_world_index. apply (index_valid l_run); [exact l_run_ok|cbn; lia]. Qed.
Lemma run_index_wf : well_formed (w_files w_run 105%nat) 4. Proof. unfold w_run. rewrite run_world_index. exact run_wf. Qed.
Lemma run_usual : usual_chunks (w_files w_run 105%nat) 4.
Proof.
  assert (H : map (ent_size (w_files w_run 105%nat)) (seq 0 4) = [65; 80; 80; 15]) by (vm_compute; reflexivity).
  revert H. generalize (w_files w_run 105%nat). intros f H i Hi. cbn [map seq] in H. injection H as H0 H1 H2 H3. unfold BUF_SIZE.
  destruct i as [|[|[|[|i]]]]; rewrite ?H0, ?H1, ?H2, ?H3; try (split; [reflexivity|discriminate]). exfalso. revert Hi. apply Nat.nlt_ge. do 4 apply le_n_S. apply Nat.le_0_l.
Qed.

(** *** A run on a finished target. *)
Definition last_run : world := fresh (w_files (snd (main toy0 csn_s next_run))) 400.
Lemma last_sane : sane toy0 csn_s last_run.
Proof.
  apply (sane_later csn_s next_run); [exact next_sane| |].
  - eapply (later_ok next_run); [apply (sa_files _ _ _ next_sane)|exact next_target|apply small_bytes; vm_compute; reflexivity|vm_compute; reflexivity].
  - intros ino X. apply toy_index in X. subst. unfold last_run. rewrite fresh_files. apply index_kept.
Qed.
Lemma toy_special_free tp args : special_free toy0 tp args. Proof. intros arg path ip ino _ _ _. discriminate. Qed.
Definition is_ok {A} (r : outcome A) : bool := match r with Ok _ => true | _ => false end.
Definition starts (r : outcome init_res) : bool := match r with Ok (InitOk _) => true | _ => false end.
Lemma again_meets : sane toy0 csn_s next_run /\ good_index toy0 csn_s next_run /\ hash_reliable toy0 next_run /\ fst (main toy0 csn_s next_run) = Ok 0 /\
  e_open toy0 (cmd_index csn_s) = Some 105%nat /\ valid_index (w_files next_run 105%nat) p_ex 4 /\ usual_chunks (w_files next_run 105%nat) 4 /\
  (forall i, w_files last_run i = w_files (snd (main toy0 csn_s next_run)) i) /\ sane toy0 csn_s last_run /\ hash_reliable toy0 last_run /\ error_free (w_io last_run) /\
  special_free toy0 (cmd_target csn_s) (cmd_stores csn_s).
Proof.
  rewrite next_index. split; [exact next_sane|]. split.
  { intros ino p n X HV. apply toy_index in X. subst ino. rewrite next_index in *. destruct (valid_same _ _ _ _ _ run_index_valid HV) as (_ & ->). exact run_index_wf. }
  split; [now apply toy_reliable|]. split; [exact next_ok|]. split; [reflexivity|]. split; [exact run_index_valid|]. split; [exact run_usual|]. split; [intros i; unfold last_run; apply fresh_files|].
  split; [exact last_sane|]. split; [now apply toy_reliable|]. split; [apply fresh_io|apply toy_special_free].
Qed.

(** *** casync *)
Definition casync_x : list bytes := [bs "/usr/bin/casync"; bs "extract"; bs "--store=s"; bs "--seed"; bs "t"; bs "--seed-output=no"; bs "i"; bs "t"].
Definition os_x : list optres := [OptStore (bs "s"); OptStore (bs "t"); OptIgnored].
Lemma extraction_x : extraction casync_x os_x /\ as_csn casync_x os_x = [bs "csn"; bs "i"; bs "t"; bs "s"; bs "t"] /\ (length (store_opts os_x) <= casync_slots casync_x)%nat.
Proof.
  split; [|split; [reflexivity|vm_compute; lia]]. split; [vm_compute; reflexivity|]. split; [cbn; lia|]. exists [bs "extract"; bs "i"; bs "t"]. split; [vm_compute; reflexivity|].
  split; [cbn; lia|]. split; [reflexivity|]. cbn. split; intuition discriminate.
Qed.
Lemma short_mentions a : (length a < 16)%nat -> ~ mentions a.
Proof. intros H (x & y & ->). rewrite !app_length in H. change (length DRIVER) with 16%nat in H. lia. Qed.
Lemma mentions_x : Forall (fun a => ~ mentions a) (store_opts os_x).
Proof. repeat constructor; apply short_mentions; cbn; lia. Qed.
(** One word per store leaves fewer slots than stores; when the chain then cannot grow, csn starts and casync does not. *)
Definition casync_many : list bytes := [bs "casync"; bs "extract"; bs "--store=s"; bs "--store=s"; bs "--store=s"; bs "i"; bs "t"].
Definition os_many : list optres := [OptStore (bs "s"); OptStore (bs "s"); OptStore (bs "s")].
Lemma extraction_many : extraction casync_many os_many.
Proof.
  split; [vm_compute; reflexivity|]. split; [cbn; lia|]. exists [bs "extract"; bs "i"; bs "t"]. split; [vm_compute; reflexivity|].
  split; [cbn; lia|]. split; [reflexivity|]. cbn. split; intuition discriminate.
Qed.
Definition w_tight (k : nat) : world := mkWorld (w_files w_run) (repeat (IoN 1000) 40) (repeat true k ++ [false]) false [] 0 [].
Definition tight_diff (k : nat) : bool * bool := (starts (fst (init toy0 casync_many (w_tight k))), starts (fst (init toy0 (as_csn casync_many os_many) (w_tight k)))).
Lemma tight_result : tight_diff 9 = (false, true). Proof. vm_compute. reflexivity. Qed.
Lemma slots_refuted : exists E argv os w, extraction argv os /\ store_opts os <> [] /\ e_getenv E DRIVER = None /\ ~ (length (store_opts os) <= casync_slots argv)%nat /\
  error_free (w_io w) /\ starts (fst (init E (as_csn argv os) w)) = true /\ starts (fst (init E argv w)) = false.
Proof.
  exists toy0, casync_many, os_many, (w_tight 9). split; [exact extraction_many|]. split; [discriminate|]. split; [reflexivity|]. split; [vm_compute; lia|].
  split; [apply Forall_forall; intros x Hx; apply repeat_spec in Hx; now subst|]. pose proof tight_result as R. unfold tight_diff in R. apply pair_equal_spec in R. tauto.
Qed.
(** With the variable set, csn uses the kernel's hash and casync does not. *)
Definition toy_driver : env := with_driver (Some (bs "sha256-generic")) toy0.
Definition driver_modes : (bool * bool) * (bool * bool) :=
  let a := init toy_driver casync_x w_run in let c := init toy_driver (as_csn casync_x os_x) w_run in ((starts (fst a), w_kcapi (snd a)), (starts (fst c), w_kcapi (snd c))).
Lemma driver_result : driver_modes = ((true, false), (true, true)). Proof. vm_compute. reflexivity. Qed.
Lemma driver_refuted : exists E argv os w v, extraction argv os /\ e_getenv E DRIVER = Some v /\ w_kcapi w = false /\
  starts (fst (init E (as_csn argv os) w)) = true /\ w_kcapi (snd (init E (as_csn argv os) w)) = true /\
  starts (fst (init E argv w)) = true /\ w_kcapi (snd (init E argv w)) = false.
Proof.
  exists toy_driver, casync_x, os_x, w_run, (bs "sha256-generic"). split; [apply extraction_x|]. split; [reflexivity|]. split; [reflexivity|].
  pose proof driver_result as R. unfold driver_modes in R. cbv zeta in R. apply pair_equal_spec in R as (R1 & R2). apply pair_equal_spec in R1, R2. tauto.
Qed.

(** *** Runs that cannot start *)
Definition csn_miss : list bytes := [bs "csn"; bs "i"; bs "t"; bs "s"; bs "no"].
Definition shows (r : outcome N * world) : outcome N * list tev := (fst r, w_trace (snd r)).
Lemma miss_result : shows (main toy0 csn_miss w_run) = (Ok 1, [TScan 115]). Proof. vm_compute. reflexivity. Qed.
Lemma miss_sane : sane toy0 csn_miss w_run.
Proof.
  pose proof run_sane as [A1 A2 A3 A4 A5 A6 A7 A8 A9]. constructor; auto.
  - repeat constructor; vm_compute; intuition discriminate.
  - intros ino arg path X Hin (ip & HA) Y. destruct Hin as [<-|[<-|[]]]; vm_compute in HA; injection HA as <- <-; vm_compute in X, Y; congruence.
  - intros ino p n arg path X HV _ _. apply (A9 ino p n (bs "s") (bs "s") X HV); [now left|]. now exists None.
Qed.
Lemma miss_unstartable : unstartable toy0 csn_miss w_run.
Proof. right. right. right. exists (bs "no"), (bs "no"). split; [right; now left|]. split; [now exists None|reflexivity]. Qed.
(** The index cut short. *)
Definition w_short : world := toy_world [(115%nat, data_ex); (105%nat, firstn 200 (w_files w_run 105%nat)); (116%nat, t_run)] 400.
Lemma short_result : shows (main toy0 csn_s w_short) = (Ok 1, []). Proof. vm_compute. reflexivity. Qed.
