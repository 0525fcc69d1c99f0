(** Witnesses for Properties12.v. *)
From Verif Require Import Base Lib SpecBasic SpecEnv Utils Log SpecLog LogSites Chunker SpecChunker Bench SpecBench PfUtils PfLog PfLog2 PfBench Toy Ex2 Ex4 Ex6.
Local Open Scope N_scope.

(** ** Messages *)
Definition mem_site (s : site) : bool :=
  existsb (fun t => beq (s_file s) (s_file t) && beq (s_func s) (s_func t) && (s_line s =? s_line t) && (s_level s =? s_level t) && beq (s_fmt s) (s_fmt t)) sites.
Lemma mem_site_in s : mem_site s = true -> In s sites.
Proof.
  unfold mem_site. rewrite existsb_exists. intros (t & Hin & H). apply andb_prop in H as (H & H5). apply andb_prop in H as (H & H4). apply andb_prop in H as (H & H3). apply andb_prop in H as (H1 & H2).
  apply beq_eq in H1, H2, H5. apply N.eqb_eq in H3, H4. destruct s, t. cbn in *. subst. exact Hin.
Qed.
Definition site_type : site := ERR (bs "utils.c") (bs "fd_size") 172 (bs "unsupported file type: 0%o").
Lemma site_type_in : In site_type sites. Proof. apply mem_site_in. vm_compute. reflexivity. Qed.
Lemma site_type_base : is_basename (bs "/src/utils.c") (s_file site_type).
Proof. split; [vm_compute; intuition discriminate|]. right. exists (bs "/src"). reflexivity. Qed.
Lemma site_type_text : printf (s_fmt site_type) [AInt 8192] = Some (bs "unsupported file type: 020000"). Proof. vm_compute. reflexivity. Qed.
Lemma site_type_fmt : s_fmt site_type <> long_fmt. Proof. vm_compute. discriminate. Qed.

Definition site_long : site := ERR (bs "store-local.c") (bs "store_sideload_index") 70 long_fmt.
Lemma site_long_in : In site_long sites. Proof. apply mem_site_in. vm_compute. reflexivity. Qed.
Definition args_long : list arg := [AInt 16384; AInt 65536; AInt 262144; AInt 32768; AInt 131072; AInt 524288].
Definition text_long : bytes := bs "chunker parameter mismatch between sideload index (16384 / 65536 / 262144)and chosen parameters (32768 / 131072 / 524288)".
Lemma long_text : printf (s_fmt site_long) args_long = Some text_long. Proof. vm_compute. reflexivity. Qed.
Lemma long_cut : log_at site_long false U_LOG_INFO (bs "store-local.c") args_long
  = Some (header false U_LOG_ERR (bs "store-local.c") (bs "store_sideload_index") 70 ++ bs "chunker parameter mismatch between sideload index (16384 / 65536 / 262144)and chosen parameters").
Proof. vm_compute. reflexivity. Qed.
Lemma long_base : is_basename (bs "store-local.c") (s_file site_long).
Proof. split; [vm_compute; intuition discriminate|]. now left. Qed.
Lemma long_differs : Some (header false U_LOG_ERR (bs "store-local.c") (bs "store_sideload_index") 70 ++ bs "chunker parameter mismatch between sideload index (16384 / 65536 / 262144)and chosen parameters")
  <> Some (full_message site_long false text_long).
Proof. vm_compute. discriminate. Qed.

(** a format cut within its conversion *)
Definition fmt_split : bytes := repeat 97 114 ++ bs "%s".
Lemma split_text : printf fmt_split [AStr (bs "x")] = Some (repeat 97 114 ++ bs "x"). Proof. vm_compute. reflexivity. Qed.
Lemma split_undefined : u_log false U_LOG_INFO U_LOG_ERR (bs "a.c") (bs "f") 1 fmt_split [AStr (bs "x")] = None. Proof. vm_compute. reflexivity. Qed.

(** ** Hex dumps *)
Definition dump_data : bytes := map N.of_nat (seq 30 20).
Lemma dump_ok : bytes_ok dump_data /\ dump_data <> []. Proof. split; [apply Forall_forall; intros x Hx; apply in_map_iff in Hx as (i & <- & Hi); apply in_seq in Hi; lia|discriminate]. Qed.
Lemma dump_text : hexdump dump_data = Some (bs "  0000  1e 1f 20 21 22 23 24 25 26 27 28 29 2a 2b 2c 2d  .. !""#$%&'()*+,-" ++ NL ++
  bs "  0010  2e 2f 30 31                                      ./01" ++ NL).
Proof. vm_compute. reflexivity. Qed.

(** ** csn-bench *)
Definition t0 : timespec := mkTs 100 900000000.
Definition ticks : list timespec := [mkTs 104 0; mkTs 109 999999999; mkTs 110 100].
Lemma t0_ok : clock_ok t0. Proof. unfold clock_ok, t0. cbn. lia. Qed.
Lemma ticks_ok : Forall (fun t => clock_ok t /\ (tv_sec t - tv_sec t0 < 18446744073709551)%Z) ticks.
Proof. unfold ticks, clock_ok, t0. repeat constructor; cbn; lia. Qed.
Lemma ticks_up : Exists (fun t => time_up t0 t = true) ticks. Proof. do 2 apply Exists_cons_tl. apply Exists_cons_hd. reflexivity. Qed.
Lemma toy_disc : disc_of p_ex 45. Proof. exact disc_ex. Qed.
Lemma bench_run : exists r, bench_chunker_with toy0 512 p_ex true (t0 :: ticks) = Ok r /\ cb_count r = 3 /\ cb_ms r = 9101 /\ (10 <=? length (cb_ids r))%nat = true.
Proof. eexists. split; [vm_compute; reflexivity|]. vm_compute. auto. Qed.
Lemma three_clocks : all_close (t0 :: ticks).
Proof. split; [constructor; [exact t0_ok|]; eapply Forall_impl; [|exact ticks_ok]; intros a Ha; apply Ha|]. unfold t0, ticks. cbn [In]. intros s t Hs Ht. repeat destruct Hs as [<-|Hs]; try tauto; repeat destruct Ht as [<-|Ht]; try tauto; cbn; lia. Qed.
