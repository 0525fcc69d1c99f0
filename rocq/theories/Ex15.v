(** Examples for the messages of a run. *)
From Verif Require Import Base Lib Utils Log SpecLog LogSites Chunker Caibx StoreLocal StoreHttp Chain MainProg Res Report
  SpecBasic SpecEnv SpecStore SpecCaibx SpecMain SpecRun SpecStats SpecReport PfReport Toy Ex3 Ex6 Ex7 Ex11 Ex12 Ex13 Ex14.
Local Open Scope N_scope.

(** *** The key in the log *)
Definition site71 : site := INFO (bs "store.c") (bs "store_chain_free") 71 (bs "    %u answered by store %s").
Lemma site71_in : In site71 answered_sites. Proof. left. reflexivity. Qed.
Lemma store_c_base : is_basename (bs "store.c") (bs "store.c").
Proof. split; [vm_compute; intuition discriminate|]. now left. Qed.
Lemma main_c_base : is_basename (bs "../main.c") (bs "main.c").
Proof. split; [vm_compute; intuition discriminate|]. right. exists (bs ".."). reflexivity. Qed.
Definition base_url : bytes := bs "http://h/x".
Lemma key_url_parts : key_url = base_url ++ key_param ++ hex64. Proof. reflexivity. Qed.
Definition made_key (r : outcome (option hstore)) : option bytes := match r with Ok (Some hs) => hs_key hs | _ => None end.
Lemma key_made : made_key (fst (store_http_new toy0 key_url w13)) = Some key32. Proof. vm_compute. reflexivity. Qed.
Lemma key_line : answered_line site71 false U_LOG_INFO (bs "store.c") 3 (bs "t") key_url =
  Some (bs "INF store.c:store_chain_free:71     3 answered by store http://h/x#encrypt=key:" ++ hex64 ++ NL).
Proof. vm_compute. reflexivity. Qed.
Lemma key_meets : startswith base_url (bs "http") = true /\ base_url ++ key_param ++ hex64 <> bs "t" /\ (length base_url <= 50)%nat /\ length hex64 = 64%nat /\ Forall is_hex hex64.
Proof.
  split; [reflexivity|]. split; [vm_compute; discriminate|]. split; [vm_compute; repeat constructor|]. split; [reflexivity|].
  assert (H : forallb (fun c => existsb (N.eqb c) hex_alphabet) hex64 = true) by (vm_compute; reflexivity).
  rewrite forallb_forall in H. apply Forall_forall. intros c Hc. specialize (H c Hc). apply existsb_exists in H as (d & Hd & He). apply N.eqb_eq in He. subst. exact Hd.
Qed.
Lemma env_line : answered_line site71 false U_LOG_INFO (bs "store.c") 3 (bs "t") env_url =
  Some (bs "INF store.c:store_chain_free:71     3 answered by store http://h/x#encrypt=env:KEY" ++ NL).
Proof. vm_compute. reflexivity. Qed.
Lemma key_refuted : exists E w w' hs s level h target arg key, store_http_new E arg w = (Ok (Some hs), w') /\ hs_key hs = Some key /\ In s answered_sites /\
  u_log_init false None = (level, Some []) /\ exists text, hex_denotes text key /\ prints text (answered_line s false level (bs "store.c") h target arg).
Proof.
  pose proof key_made as K. destruct (store_http_new toy0 key_url w13) as [[[hs|]| | |] w'] eqn:R; try discriminate K. cbn [fst made_key] in K.
  exists toy0, w13, w', hs, site71, U_LOG_INFO, 3, (bs "t"), key_url, key32. split; [exact R|]. split; [exact K|]. split; [exact site71_in|]. split; [reflexivity|].
  exists hex64. split.
  - rewrite key_url_parts in R. destruct key_meets as (_ & _ & _ & L & F). destruct (url_key toy0 w13 w' base_url hex64 hs) as (k & A & B); auto; [intros v s X; discriminate|vm_compute; intuition discriminate|]. congruence.
  - rewrite key_line. exists (bs "INF store.c:store_chain_free:71     3 answered by store http://h/x#encrypt=key:"), NL. reflexivity.
Qed.

(** *** The numbers of a run *)
Definition summary_of (E : env) (argv : list bytes) (w : world) : option (N * N * nat) :=
  match init E argv w with
  | (Ok (InitOk su), w1) =>
      match caibx_iterate_entries (entry_cb E (su_n su)) (su_index su) (su_params su) (su_n su) (initial_mstate su) w1 with
      | (Ok (true, st), w2) => Some (m_skipped st, all_delivered (length (cmd_stores argv)) (firstn (length (w_trace w2) - length (w_trace w1)) (w_trace w2)),
                                     n_to_fetch (w_files w (su_index su)) (N.to_nat (m_skipped st)) (N.to_nat (su_n su)))
      | _ => None
      end
  | _ => None
  end.
Lemma summary_ex : summary_of toy0 csn_s w_run = Some (1, 2, 2%nat). Proof. vm_compute. reflexivity. Qed.
Lemma summary_sizes i : (i < 4)%nat -> 0 < ent_size (w_files w_run 105%nat) i.
Proof.
  assert (H : map (ent_size (w_files w_run 105%nat)) (seq 0 4) = [65; 80; 80; 15]) by (vm_compute; reflexivity).
  revert H. generalize (w_files w_run 105%nat). intros f H Hi. cbn [map seq] in H. injection H as H0 H1 H2 H3.
  destruct i as [|[|[|[|i]]]]; rewrite ?H0, ?H1, ?H2, ?H3; try reflexivity. exfalso. revert Hi. apply Nat.nlt_ge. do 4 apply le_n_S. apply Nat.le_0_l.
Qed.
Lemma summary_meets : sane toy0 csn_s w_run /\ good_index toy0 csn_s w_run /\ hash_reliable toy0 w_run /\
  (forall i, (i < 4)%nat -> 0 < ent_size (w_files w_run 105%nat) i) /\ summary_of toy0 csn_s w_run = Some (1, 2, 2%nat).
Proof. split; [exact run_sane|]. split; [exact run_good|]. split; [left; split; reflexivity|]. split; [exact summary_sizes|exact summary_ex]. Qed.
