(** Witnesses for Properties6.v. *)
From Verif Require Import Base Lib SpecBasic SpecEnv Utils Discr Chunker Caibx Index StoreLocal Target StoreHttp Chain MainProg SpecChunker SpecCaibx SpecStore SpecHttp SpecMain SpecRun SpecOrder
  PfUtils PfBasic PfIO PfKeyspec PfCaibx PfCaibx2 PfIndex PfFrame PfLocal PfSync Toy Ex1 Ex2 Ex4.
Local Open Scope N_scope.

(** The index "i", the target "t", the store "s" with [data_ex] = c1 ++ c2 ++ c3. *)
Definition c1 : bytes := firstn 80 data_ex.
Definition c2 : bytes := slice 80 65 data_ex.
Definition c3 : bytes := skipn 145 data_ex.
Definition run_world (l : list (N * bytes)) (t : bytes) : world :=
  toy_world [(115%nat, data_ex); (105%nat, index_file 0 p_ex l); (116%nat, t)] 400.
Definition csn_s : list bytes := [bs "csn"; bs "i"; bs "t"; bs "s"].
Definition csn_ts : list bytes := [bs "csn"; bs "i"; bs "t"; bs "t"; bs "s"].

Lemma run_world_index l t : w_files (run_world l t) 105%nat = index_file 0 p_ex l. Proof. reflexivity. Qed.
Lemma run_world_ok l t : Forall (fun e => good_id (snd e)) l -> (length l <= 10)%nat -> bytes_ok t -> blen t < OFF_LIMIT -> files_ok (run_world l t).
Proof.
  intros H Hl Ht Hb i. unfold run_world, toy_world, files_of. cbn [w_files find fst].
  destruct (Nat.eqb_spec 115 i); [cbn [snd]; split; [exact data_ex_ok|vm_compute; reflexivity]|].
  destruct (Nat.eqb_spec 105 i); [cbn [snd]; split; [apply index_file_ok, H|]|].
  - unfold blen. rewrite index_file_length by exact H. unfold OFF_LIMIT. lia.
  - destruct (Nat.eqb_spec 116 i); [cbn [snd]; auto|]. split; [constructor|vm_compute; reflexivity].
Qed.
Lemma p_ex_good : good_params p_ex. Proof. unfold good_params. cbn. split; [split|]; reflexivity. Qed.
Lemma flags0 : known_flags 0. Proof. exists false, false, false. reflexivity. Qed.
Lemma index_valid l : Forall (fun e => good_id (snd e)) l -> (length l <= 10)%nat -> valid_index (index_file 0 p_ex l) p_ex (N.of_nat (length l)).
Proof. intros H Hl. apply index_file_valid; auto using flags0, p_ex_good. change (2 ^ 58) with 288230376151711744. lia. Qed.
Lemma valid_same f p n p' n' : valid_index f p n -> valid_index f p' n' -> p' = p /\ n' = n.
Proof.
  intros (A0 & _ & _ & _ & A1 & A2 & A3 & _) (B0 & _ & _ & _ & B1 & B2 & B3 & _). split; [|lia].
  destruct p as [a b c], p' as [a' b' c']. cbn in *. congruence.
Qed.
Lemma toy_server_ok o1 o2 k g : server_ok (toy_env no_server o1 o2 k g). Proof. intros u n s []. Qed.
Lemma toy_reliable w : w_kcapi w = false -> hash_reliable toy0 w. Proof. intros H. left. auto. Qed.

(** csn INDEX TARGET followed by "t" and "s" in any order and number *)
Lemma toy_sane l t args : Forall (fun e => good_id (snd e)) l -> (length l <= 10)%nat -> bytes_ok t -> blen t < OFF_LIMIT ->
  Forall (fun a => a = bs "t" \/ a = bs "s") args -> sane toy0 (bs "csn" :: bs "i" :: bs "t" :: args) (run_world l t).
Proof.
  intros H Hl Ht Hb Ha. set (argv := bs "csn" :: bs "i" :: bs "t" :: args).
  assert (Ec : is_csn argv = true) by reflexivity. assert (Ei : cmd_index argv = bs "i") by reflexivity. assert (Et : cmd_target argv = bs "t") by reflexivity.
  assert (Es : cmd_stores argv = args) by reflexivity. rewrite Forall_forall in Ha. constructor.
  - apply toy_ok.
  - apply toy_server_ok.
  - intros v s X. discriminate.
  - now apply run_world_ok.
  - rewrite Es. apply Forall_forall. intros a Hin. destruct (Ha a Hin) as [-> | ->]; intros [X|[]]; discriminate.
  - congruence.
  - rewrite Ei, Et. intros ino X Y. vm_compute in X, Y. congruence.
  - rewrite Et, Es. intros ino arg path X Hin (ip & HA) Y. destruct (Ha arg Hin) as [-> | ->]; vm_compute in HA; [discriminate|].
    injection HA as <- <-. vm_compute in X, Y. congruence.
  - rewrite Ei. intros ino p n arg path X HV _ _. assert (ino = 105%nat) as -> by (vm_compute in X; congruence). rewrite run_world_index in HV.
    destruct (valid_same _ _ _ _ _ (index_valid l H Hl) HV) as (-> & _). exists 45. exact disc_ex.
Qed.
Lemma toy_good l t args : Forall (fun e => good_id (snd e)) l -> (length l <= 10)%nat -> well_formed (index_file 0 p_ex l) (length l) ->
  good_index toy0 (bs "csn" :: bs "i" :: bs "t" :: args) (run_world l t).
Proof.
  intros H Hl Hw ino p n X HV. assert (ino = 105%nat) as -> by (vm_compute in X; congruence). rewrite run_world_index in *.
  destruct (valid_same _ _ _ _ _ (index_valid l H Hl) HV) as (-> & ->). now rewrite Nat2N.id.
Qed.
Lemma toy_described l t args pieces : Forall (fun e => good_id (snd e)) l -> (length l <= 10)%nat -> describes toy0 (index_file 0 p_ex l) (length l) pieces ->
  described toy0 (bs "csn" :: bs "i" :: bs "t" :: args) (run_world l t) pieces.
Proof.
  intros H Hl Hw ino p n X HV. assert (ino = 105%nat) as -> by (vm_compute in X; congruence). rewrite run_world_index in *.
  destruct (valid_same _ _ _ _ _ (index_valid l H Hl) HV) as (-> & ->). now rewrite Nat2N.id.
Qed.

Ltac good_ids := repeat (constructor; [apply toyH_good|]); constructor.
Ltac all_below i H := destruct i as [|i]; [clear H|first [exfalso; cbn in H; lia|all_below i H]].
Ltac few H := match type of H with (?i < _)%nat => revert H; do 6 (destruct i as [|i]; [intros H|]); try (intros H; exfalso; cbn in H; lia) end.

(** The run used as example: c2 is in place, c1 is listed twice. *)
Definition l_run : list (N * bytes) := [(65, id2); (145, id1); (225, id1); (240, id3)].
Definition pieces_run : list bytes := [c2; c1; c1; c3].
Definition t_run : bytes := c2 ++ [1; 2; 3].
Definition w_run : world := run_world l_run t_run.
Lemma l_run_ok : Forall (fun e => good_id (snd e)) l_run. Proof. good_ids. Qed.
Lemma small_bytes t : forallb (fun x => x <? 256) t = true -> bytes_ok t.
Proof. intros H. apply Forall_forall. intros x Hx. rewrite forallb_forall in H. apply H in Hx. now apply N.ltb_lt. Qed.
Lemma t_run_ok : bytes_ok t_run /\ blen t_run < OFF_LIMIT.
Proof. split; [apply small_bytes|]; vm_compute; reflexivity. Qed.
Lemma run_described : describes toy0 (index_file 0 p_ex l_run) (length l_run) pieces_run.
Proof.
  split; [reflexivity|]. intros i P HP. assert (Hi : (i < 4)%nat) by (change 4%nat with (length pieces_run); apply nth_error_Some; congruence).
  destruct i as [|[|[|[|i]]]]; [..|lia]; cbn [nth_error pieces_run] in HP; injection HP as <-; vm_compute; repeat split; reflexivity.
Qed.
Lemma run_wf : well_formed (index_file 0 p_ex l_run) (length l_run).
Proof.
  intros i Hi. destruct i as [|[|[|[|i]]]]; [..|cbn in Hi; lia]; (split; [vm_compute; discriminate|]; split; [vm_compute; reflexivity|]; intros Hs He); try (vm_compute in He; discriminate); try reflexivity.
Qed.
Lemma run_sane : sane toy0 csn_s w_run.
Proof. apply toy_sane; [exact l_run_ok|cbn; lia|apply t_run_ok|apply t_run_ok|constructor; [now right|constructor]]. Qed.
Lemma run_good : good_index toy0 csn_s w_run.
Proof. apply toy_good; [exact l_run_ok|cbn; lia|exact run_wf]. Qed.
Lemma run_desc : described toy0 csn_s w_run pieces_run.
Proof. apply toy_described; [exact l_run_ok|cbn; lia|exact run_described]. Qed.
Definition is_asked (ev : tev) : bool := match ev with TQuery _ _ => true | _ => false end.
Definition is_put (ev : tev) : bool := match ev with TPut _ _ _ => true | _ => false end.
Definition count (f : tev -> bool) (w : world) : nat := length (filter f (w_trace w)).
Lemma run_result : let r := main toy0 csn_s w_run in
  (fst r, w_files (snd r) 116%nat, count is_asked (snd r), count is_put (snd r)) = (Ok 0, concat pieces_run, 2%nat, 3%nat).
Proof. vm_compute. reflexivity. Qed.

(** The other runs. *)
Lemma toy_world_quiet l t : error_free (w_io (run_world l t)) /\ w_alloc (run_world l t) = [].
Proof. split; [|reflexivity]. apply Forall_forall. intros x Hx. apply repeat_spec in Hx. now subst. Qed.
Definition result (l : list (N * bytes)) (t : bytes) : outcome N * bytes :=
  let r := main toy0 csn_s (run_world l t) in (fst r, w_files (snd r) 116%nat).

(** C06: entry 1 of 5 GB; an end offset that goes backwards *)
Definition l_huge : list (N * bytes) := [(80, id1); (5000000080, id2)].
Definition l_back : list (N * bytes) := [(80, id1); (65, id2)].
Lemma huge_result : result l_huge [] = (Ok 0, c1). Proof. vm_compute. reflexivity. Qed.
Lemma back_result : result l_back [] = (Ok 0, c1). Proof. vm_compute. reflexivity. Qed.
(** C07: id1 with 80 and with 100 bytes; with 300000 bytes; an empty entry with an id that is in no store first *)
Definition l_rep : list (N * bytes) := [(80, id1); (180, id1)].
Definition l_oob : list (N * bytes) := [(80, id1); (300080, id1)].
Definition id9 : bytes := toyH [9; 9].
Definition l_empty : list (N * bytes) := [(0, id9); (80, id9)].
Lemma rep_result : result l_rep [] = (Ok 0, c1 ++ c1 ++ zeros 20). Proof. vm_compute. reflexivity. Qed.
Lemma oob_result : fst (main toy0 csn_s (run_world l_oob [])) = UB. Proof. vm_compute. reflexivity. Qed.
Lemma empty_result : result l_empty [] = (Ok 0, zeros 80). Proof. vm_compute. reflexivity. Qed.

Lemma small_sane l args : Forall (fun e => good_id (snd e)) l -> (length l <= 10)%nat ->
  Forall (fun a => a = bs "t" \/ a = bs "s") args -> sane toy0 (bs "csn" :: bs "i" :: bs "t" :: args) (run_world l []).
Proof. intros H Hl Ha. apply toy_sane; auto; [constructor|vm_compute; reflexivity]. Qed.
Ltac one_arg := constructor; [now right|constructor].

(** A run that meets every condition on the setting. *)
Definition fine (E : env) (argv : list bytes) (w : world) : Prop :=
  sane E argv w /\ hash_reliable E w /\ error_free (w_io w) /\ w_alloc w = [].
Lemma small_fine l : Forall (fun e => good_id (snd e)) l -> (length l <= 10)%nat -> fine toy0 csn_s (run_world l []).
Proof.
  intros H Hl. split; [apply small_sane; auto; one_arg|]. split; [now apply toy_reliable|]. apply toy_world_quiet.
Qed.
Lemma result_eq l t c g : result l t = (c, g) -> exists w', main toy0 csn_s (run_world l t) = (c, w') /\ w_files w' 116%nat = g.
Proof. unfold result. intros H. destruct (main toy0 csn_s (run_world l t)) as [c' w']. cbn [fst snd] in H. injection H as <- <-. eauto. Qed.
Lemma small_valid l t : Forall (fun e => good_id (snd e)) l -> (length l <= 10)%nat -> 
  e_open toy0 (cmd_index csn_s) = Some 105%nat /\ e_open_rw toy0 (cmd_target csn_s) = Some 116%nat /\
  valid_index (w_files (run_world l t) 105%nat) p_ex (N.of_nat (length l)).
Proof. intros H Hl. split; [reflexivity|]. split; [reflexivity|]. rewrite run_world_index. now apply index_valid. Qed.

(** [processed]: the target reaches the end of entry [i] and the entry does not go backwards *)
Lemma huge_refuted : exists E argv w w' iino tino p n i, fine E argv w /\ main E argv w = (Ok 0, w') /\
  e_open E (cmd_index argv) = Some iino /\ e_open_rw E (cmd_target argv) = Some tino /\ valid_index (w_files w iino) p n /\
  (i < N.to_nat n)%nat /\ ent_start (w_files w iino) i <= ent_end (w_files w iino) i /\ blen (w_files w' tino) < ent_end (w_files w iino) i.
Proof.
  destruct (result_eq _ _ _ _ huge_result) as (w' & A & B). assert (G : Forall (fun e => good_id (snd e)) l_huge) by good_ids.
  destruct (small_valid l_huge [] G ltac:(cbn; lia)) as (V1 & V2 & V3).
  exists toy0, csn_s, (run_world l_huge []), w', 105%nat, 116%nat, p_ex, 2, 1%nat. rewrite run_world_index in *.
  split; [apply small_fine; [exact G|cbn; lia]|]. do 4 (split; [assumption|]). split; [cbn; lia|]. rewrite B.
  split; [vm_compute; discriminate|vm_compute; reflexivity].
Qed.
Definition asked (id : bytes) (w : world) : Prop := exists i, In (TQuery i id) (w_trace w).
Lemma back_refuted : exists E argv w w' iino p n i, fine E argv w /\ main E argv w = (Ok 0, w') /\
  e_open E (cmd_index argv) = Some iino /\ valid_index (w_files w iino) p n /\
  (i < N.to_nat n)%nat /\ ent_end (w_files w iino) i < ent_start (w_files w iino) i.
Proof.
  destruct (result_eq _ _ _ _ back_result) as (w' & A & B). assert (G : Forall (fun e => good_id (snd e)) l_back) by good_ids.
  destruct (small_valid l_back [] G ltac:(cbn; lia)) as (V1 & V2 & V3).
  exists toy0, csn_s, (run_world l_back []), w', 105%nat, p_ex, 2, 1%nat. rewrite run_world_index in *.
  split; [apply small_fine; [exact G|cbn; lia]|]. do 3 (split; [assumption|]). split; [cbn; lia|vm_compute; reflexivity].
Qed.

Definition wrong_entry (E : env) (f g : bytes) (i : nat) : Prop :=
  ent_start f i <= ent_end f i /\ ent_end f i <= blen g /\ 0 < ent_size f i /\ e_H E (ent_slice f i g) <> ent_id f i.
Lemma rep_refuted : exists E argv w w' iino tino p n i, fine E argv w /\ main E argv w = (Ok 0, w') /\
  e_open E (cmd_index argv) = Some iino /\ e_open_rw E (cmd_target argv) = Some tino /\ valid_index (w_files w iino) p n /\
  (i < N.to_nat n)%nat /\ (forall j, (j < N.to_nat n)%nat -> 0 < ent_size (w_files w iino) j) /\ wrong_entry E (w_files w iino) (w_files w' tino) i.
Proof.
  destruct (result_eq _ _ _ _ rep_result) as (w' & A & B). assert (G : Forall (fun e => good_id (snd e)) l_rep) by good_ids.
  destruct (small_valid l_rep [] G ltac:(cbn; lia)) as (V1 & V2 & V3).
  exists toy0, csn_s, (run_world l_rep []), w', 105%nat, 116%nat, p_ex, 2, 1%nat. rewrite run_world_index in *.
  split; [apply small_fine; [exact G|cbn; lia]|]. do 4 (split; [assumption|]). split; [cbn; lia|]. split.
  { intros [|[|j]] Hj; [vm_compute; reflexivity|vm_compute; reflexivity|cbn in Hj; lia]. }
  rewrite B. split; [vm_compute; discriminate|]. split; [vm_compute; discriminate|]. split; [vm_compute; reflexivity|vm_compute; discriminate].
Qed.
Lemma empty_refuted : exists E argv w w' iino tino p n i, fine E argv w /\ main E argv w = (Ok 0, w') /\
  e_open E (cmd_index argv) = Some iino /\ e_open_rw E (cmd_target argv) = Some tino /\ valid_index (w_files w iino) p n /\
  (i < N.to_nat n)%nat /\ ent_size (w_files w iino) 0 = 0 /\ wrong_entry E (w_files w iino) (w_files w' tino) i.
Proof.
  destruct (result_eq _ _ _ _ empty_result) as (w' & A & B). assert (G : Forall (fun e => good_id (snd e)) l_empty) by good_ids.
  destruct (small_valid l_empty [] G ltac:(cbn; lia)) as (V1 & V2 & V3).
  exists toy0, csn_s, (run_world l_empty []), w', 105%nat, 116%nat, p_ex, 2, 1%nat. rewrite run_world_index in *.
  split; [apply small_fine; [exact G|cbn; lia]|]. do 4 (split; [assumption|]). split; [cbn; lia|]. split; [vm_compute; reflexivity|].
  rewrite B. split; [vm_compute; discriminate|]. split; [vm_compute; discriminate|]. split; [vm_compute; reflexivity|vm_compute; discriminate].
Qed.
Lemma oob_refuted : exists E argv w, fine E argv w /\ fst (main E argv w) = UB.
Proof.
  exists toy0, csn_s, (run_world l_oob []). split; [apply small_fine; [good_ids|cbn; lia]|]. exact oob_result.
Qed.

(** C13: the path "a" is the target under another name; it holds c1 ++ c2 ++ c3. *)
Definition open_alias (p : bytes) : option nat := if beq p (bs "a") then Some 116%nat else open_char p.
Definition toy_alias : env := toy_env no_server open_alias open_alias (fun _ => KReg) (fun _ => None).
Definition csn_a : list bytes := [bs "csn"; bs "i"; bs "t"; bs "a"].
Definition l_swap : list (N * bytes) := [(65, id2); (145, id1)].
Lemma alias_result : let r := main toy_alias csn_a (run_world l_swap data_ex) in
  (fst r, slice 0 65 (w_files (snd r) 116%nat), beq (toyH (slice 65 80 (w_files (snd r) 116%nat))) id1, blen (w_files (snd r) 116%nat)) = (Ok 0, c2, false, 160).
Proof. vm_compute. reflexivity. Qed.
Lemma alias_refuted : exists E argv w w' iino tino p n i,
  env_ok E /\ server_ok E /\ env_strings E /\ files_ok w /\ good_index E argv w /\ hash_reliable E w /\ error_free (w_io w) /\ w_alloc w = [] /\
  main E argv w = (Ok 0, w') /\
  e_open E (cmd_index argv) = Some iino /\ e_open_rw E (cmd_target argv) = Some tino /\ iino <> tino /\ valid_index (w_files w iino) p n /\
  (i < N.to_nat n)%nat /\ wrong_entry E (w_files w iino) (w_files w' tino) i.
Proof.
  assert (G : Forall (fun e => good_id (snd e)) l_swap) by good_ids. assert (V := index_valid l_swap G ltac:(cbn; lia)).
  assert (R := alias_result). cbv zeta in R. destruct (main toy_alias csn_a (run_world l_swap data_ex)) as [c w'] eqn:Em. cbn [fst snd] in R.
  exists toy_alias, csn_a, (run_world l_swap data_ex), w', 105%nat, 116%nat, p_ex, 2, 1%nat. rewrite run_world_index.
  split; [apply toy_ok|]. split; [apply toy_server_ok|]. split; [intros v s X; discriminate|].
  split; [apply run_world_ok; [exact G|cbn; lia|exact data_ex_ok|vm_compute; reflexivity]|]. split.
  { intros ino p n X HV. assert (ino = 105%nat) as -> by (vm_compute in X; congruence). rewrite run_world_index in *.
    destruct (valid_same _ _ _ _ _ V HV) as (-> & ->). intros [|[|i]] Hi; [..|cbn in Hi; lia];
    (split; [vm_compute; discriminate|]; split; [vm_compute; reflexivity|]; intros Hs He); [vm_compute in He; discriminate|cbn in Hs; lia]. }
  split; [left; split; reflexivity|]. split; [apply toy_world_quiet|]. split; [reflexivity|].
  split; [congruence|]. do 2 (split; [reflexivity|]). split; [discriminate|]. split; [exact V|]. split; [cbn; lia|].
  injection R as _ _ R1 R2. split; [vm_compute; discriminate|]. split; [rewrite R2; vm_compute; discriminate|]. split; [vm_compute; reflexivity|].
  apply beq_neq in R1. exact R1.
Qed.

(** C48 *)
Definition casync_h : list bytes := [bs "casync"; bs "-h"; bs "i"; bs "t"].
Lemma help_result : fst (main toy0 casync_h w_run) = UB. Proof. vm_compute. reflexivity. Qed.
Definition asks_help (argv : list bytes) : Prop := beq (basename (nth 0 argv [])) (bs "casync") = true /\ In OptHelp (fst (getopt_all (skipn 1 argv))).
Lemma help_refuted : exists E argv w, env_ok E /\ server_ok E /\ env_strings E /\ files_ok w /\ error_free (w_io w) /\ w_alloc w = [] /\
  asks_help argv /\ fst (main E argv w) = UB.
Proof.
  exists toy0, casync_h, w_run. split; [apply toy_ok|]. split; [apply toy_server_ok|]. split; [intros v s X; discriminate|].
  split; [apply run_world_ok; [exact l_run_ok|cbn; lia|apply t_run_ok|apply t_run_ok]|]. split; [apply toy_world_quiet|]. split; [reflexivity|].
  split; [split; [vm_compute; reflexivity|vm_compute; now left]|exact help_result].
Qed.

(** C47 *)
Lemma run_eq : exists w', main toy0 csn_s w_run = (Ok 0, w') /\ w_files w' 116%nat = concat pieces_run /\ count is_asked w' = 2%nat /\ count is_put w' = 3%nat.
Proof.
  pose proof run_result as R. cbv zeta in R. destruct (main toy0 csn_s w_run) as [c w']. cbn [fst snd] in R. injection R as -> R1 R2 R3. eauto.
Qed.
Lemma flush_refuted : exists E argv w w' tino tr g', fine E argv w /\ good_index E argv w /\ main E argv w = (Ok 0, w') /\
  e_open_rw E (cmd_target argv) = Some tino /\ run_trace w w' tr /\
  survives tino (rev tr) (w_files w tino) g' /\ blen g' < blen (w_files w' tino).
Proof.
  destruct run_eq as (w' & A & B & _). destruct (never_flushed toy0 csn_s w_run) as (tr & T & _ & V). rewrite A in T. cbn [snd] in T.
  exists toy0, csn_s, w_run, w', 116%nat, tr, t_run. split.
  { split; [exact run_sane|]. split; [now apply toy_reliable|]. apply toy_world_quiet. }
  split; [exact run_good|]. split; [exact A|]. split; [reflexivity|]. split; [exact T|]. split; [apply (V 116%nat)|].
  rewrite B. vm_compute. reflexivity.
Qed.

(** C04, C11 *)
Lemma run_prefix : prefix_present toy0 (w_files w_run 105%nat) 1 (w_files w_run 116%nat).
Proof.
  intros [|j] Hj; [|lia]. split; [vm_compute; discriminate|]. split; [vm_compute; discriminate|vm_compute; reflexivity].
Qed.
Definition l_twice : list (N * bytes) := [(80, id1); (145, id2); (225, id1)].
Lemma serve_result : match fst (sync_then_ask toy0 csn_ts 2 id1 (zeros 300) (run_world l_twice [])) with Ok (Some (r, o)) => r = Some 80 /\ firstn 80 o = c1 | _ => False end.
Proof. vm_compute. split; reflexivity. Qed.
Lemma serve_fine : sane toy0 csn_ts (run_world l_twice []) /\ good_index toy0 csn_ts (run_world l_twice []) /\ hash_reliable toy0 (run_world l_twice []).
Proof.
  assert (G : Forall (fun e => good_id (snd e)) l_twice) by good_ids.
  split; [apply small_sane; [exact G|cbn; lia|constructor; [now left|one_arg]]|]. split; [|now apply toy_reliable].
  apply toy_good; [exact G|cbn; lia|]. intros [|[|[|i]]] Hi; [..|cbn in Hi; lia];
  (split; [vm_compute; discriminate|]; split; [vm_compute; reflexivity|]; intros Hs He); [vm_compute in He; discriminate|vm_compute in He; discriminate|cbn in Hs; lia].
Qed.
Definition two_stores (o : outcome init_res) : bool := match o with Ok (InitOk su) => match su_store su with Some [_; _] => true | _ => false end | _ => false end.
Lemma init_run : two_stores (fst (init toy0 csn_ts (run_world l_twice []))) = true.
Proof. vm_compute. reflexivity. Qed.
Lemma run_resumes : e_open toy0 (cmd_index csn_s) = Some 105%nat /\ e_open_rw toy0 (cmd_target csn_s) = Some 116%nat /\
  valid_index (w_files w_run 105%nat) p_ex 4 /\ prefix_present toy0 (w_files w_run 105%nat) 1 (w_files w_run 116%nat).
Proof. destruct (small_valid l_run t_run l_run_ok ltac:(cbn; lia)) as (A & B & C). auto using run_prefix. Qed.
Lemma serve_all : sane toy0 csn_ts (run_world l_twice []) /\ good_index toy0 csn_ts (run_world l_twice []) /\ hash_reliable toy0 (run_world l_twice []) /\
  match fst (sync_then_ask toy0 csn_ts 2 id1 (zeros 300) (run_world l_twice [])) with Ok (Some (r, o)) => r = Some 80 /\ firstn 80 o = c1 | _ => False end.
Proof. destruct serve_fine as (A & B & C). split; [exact A|]. split; [exact B|]. split; [exact C|exact serve_result]. Qed.
Lemma doc_run : documented (bs "t") (bs "s:x") (ArgLocal (bs "s") (Some (bs "x"))).
Proof.
  apply (doc_indexed _ _ (bs "s") (bs "x")); [discriminate|intros rest X; discriminate X|reflexivity|]. intros [X|[]]; discriminate.
Qed.
