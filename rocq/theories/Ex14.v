(** Runs of Res.v and Stats.v for the theorems of Properties14.v. *)
From Verif Require Import Base Utils Encrypt Res SpecRes PfRes5 Stats SpecRun SpecStats Chain MainProg PfStats Toy Ex1 Ex2 Ex11 Ex13.
From Coq Require Import Permutation Lia Arith.
Local Open Scope nat_scope.

Definition hex64 : bytes := bs "000102030405060708090a0b0c0d0e0f101112131415161718191a1b1c1d1e1f".
Definition key32 : bytes := map N.of_nat (seq 0 32).
Definition key_file : bytes := hex64 ++ [10; 120]%N.
Definition job1 : rjob := mkJob (repeat 7%N 32) (bs "data") false.
Definition holds (d : bytes) (o : robj) : Prop := exists a b, o_data o = a ++ d ++ b.

(** csn-tool with a key file, one chunk: the file is opened, measured, read; the cipher is made; the chunk (which
    has no output yet) is encrypted. *)
Definition tool_ans : list rans := [Yes; Yes; Yes; Yes; Yes; Yes; Yes; No 0].
Lemma tool_run : let r := crypt (SFile (hex64 ++ [10]%N)) [job1] (r_init tool_ans) in
  (fst r, map o_kind (r_gone (snd r)), length (r_live (snd r)), r_peak (snd r)) =
  (Ok true, [KStack; KStack; KCipher; KMem; KFd; KFd; KStack; KStack; KMem; KFd], 0, 1).
Proof. vm_compute. reflexivity. Qed.
Lemma tool_last : let r := crypt (SFile (hex64 ++ [10]%N)) [job1] (r_init tool_ans) in
  map o_data (firstn 2 (r_gone (snd r))) = [key32; repeat 0%N 32].
Proof. vm_compute. reflexivity. Qed.
Lemma stack_run : crypt (SText hex64) [] (r_init []) =
  (Ok true, mkRst [] 3 [] [mkObj 0 KStack key32; mkObj 1 KStack (repeat 0%N 32); mkObj 2 KCipher []] 0).
Proof. vm_compute. reflexivity. Qed.
Lemma stack_refuted : exists src l, ~ always (crypt src l) (fun _ _ gone _ =>
  forall o, In o gone -> o_kind o = KStack -> all_zero (o_data o)).
Proof.
  exists (SText hex64), []. eapply not_always; [exact stack_run |]. cbn [r_gone]. intros H.
  specialize (H (mkObj 0 KStack key32) (or_introl eq_refl) eq_refl). unfold all_zero in H. rewrite Forall_forall in H.
  specialize (H 1%N). discriminate H. right. left. reflexivity.
Qed.
(** The read of the key file fails after 64 bytes. *)
Lemma partial_run : crypt (SFile key_file) [] (r_init [Yes; Yes; Yes; No 64]) =
  (Ok false, mkRst [] 3 [] [mkObj 0 KStack key_buf_new; mkObj 1 KFd []; mkObj 2 KMem hex64] 1).
Proof. vm_compute. reflexivity. Qed.
Lemma partial_refuted : exists c l, ~ always (crypt (SFile c) l) (fun _ _ gone _ =>
  forall o, In o gone -> o_kind o = KMem -> ~ holds hex64 o).
Proof.
  exists key_file, []. eapply not_always; [exact partial_run |]. cbn [r_gone]. intros H.
  apply (H (mkObj 2 KMem hex64)); [right; right; left; reflexivity | reflexivity |]. exists [], []. reflexivity.
Qed.

(** *** HTTP stores *)
(** The key in the argument of the store. *)
Definition url_of (spec : bytes) : bytes := bs "http://h/x#encrypt=" ++ spec.
Definition key_url : bytes := url_of (bs "key:" ++ hex64).
Definition env_url : bytes := url_of (bs "env:KEY").
Definition reqs1 : list (bytes * nat) := [(repeat 7%N 32, 2)].
Lemma http_run : let r := http_life env_url [PEncrypt (SText hex64)] reqs1 (r_init []) in
  (fst r, r_live (snd r), map o_data (filter (fun o => rkind_eqb (o_kind o) KMem) (r_gone (snd r)))) =
  (Ok true, [], [repeat 0%N 32; env_url; []; []; env_url]).
Proof. vm_compute. reflexivity. Qed.
Definition cut_ps : list rparam := [PEncrypt (SText hex64); PBad].
Definition cut_url : bytes := env_url ++ bs ",x".
Lemma http_cut_run : http_new cut_url cut_ps (r_init []) =
  (Ok None, mkRst [mkObj 4 KCipher []] 5 [] [mkObj 0 KMem key32; mkObj 1 KMem []; mkObj 2 KMem cut_url; mkObj 3 KStack key32] 0).
Proof. vm_compute. reflexivity. Qed.
Lemma http_cut_refuted : exists a ps, ~ always (http_new a ps) (fun r live _ _ => r = None -> live = []).
Proof.
  exists cut_url, cut_ps. eapply not_always; [exact http_cut_run |]. cbn [r_live]. intros H. specialize (H eq_refl). discriminate H.
Qed.
Lemma http_key_refuted : exists a ps, ~ always (http_new a ps) (fun _ _ gone _ =>
  forall o, In o gone -> o_kind o = KMem -> ~ holds key32 o).
Proof.
  exists cut_url, cut_ps. eapply not_always; [exact http_cut_run |]. cbn [r_gone]. intros H.
  apply (H (mkObj 0 KMem key32)); [now left | reflexivity |]. exists [], []. reflexivity.
Qed.
Lemma http_url_run : let r := http_life key_url [PEncrypt (SText hex64)] [] (r_init []) in
  (fst r, map o_data (filter (fun o => rkind_eqb (o_kind o) KMem) (r_gone (snd r)))) =
  (Ok true, [repeat 0%N 32; key_url; []; key_url]).
Proof. vm_compute. reflexivity. Qed.
Lemma http_url_refuted : exists a ps, ~ always (http_life a ps []) (fun r _ gone _ => r = true ->
  forall o, In o gone -> o_kind o = KMem -> ~ holds hex64 o).
Proof.
  exists key_url, [PEncrypt (SText hex64)]. pose proof http_url_run as R. cbn zeta in R.
  destruct (http_life key_url [PEncrypt (SText hex64)] [] (r_init [])) as [o st] eqn:E.
  cbn [fst snd] in R. apply pair_equal_spec in R. destruct R as [-> R]. eapply not_always; [exact E |].
  intros H. specialize (H eq_refl).
  assert (Hin : In key_url (map o_data (filter (fun o => rkind_eqb (o_kind o) KMem) (r_gone st)))).
  { rewrite R. right. left. reflexivity. }
  apply in_map_iff in Hin. destruct Hin as (o & Ed & Ho). apply filter_In in Ho. destruct Ho as [Ho Hk].
  assert (Hk' : o_kind o = KMem) by (destruct (o_kind o); try discriminate Hk; reflexivity).
  apply (H o Ho Hk'). exists (bs "http://h/x#encrypt=key:"), []. rewrite Ed, app_nil_r. reflexivity.
Qed.
Definition two_ps : list rparam := [PEncrypt (SText hex64); PEncrypt (SText hex64)].
Definition two_url : bytes := env_url ++ bs ",encrypt=env:KEY".
Lemma http_two_run : let r := http_life two_url two_ps [] (r_init []) in (fst r, map o_kind (r_live (snd r))) = (Ok true, [KCipher]).
Proof. vm_compute. reflexivity. Qed.
Lemma http_two_refuted : exists a ps, ~ always (http_life a ps []) (fun r live _ _ => r = true -> live = []).
Proof.
  exists two_url, two_ps. pose proof http_two_run as R. cbn zeta in R. destruct (http_life two_url two_ps [] (r_init [])) as [o st] eqn:E.
  cbn [fst snd] in R. apply pair_equal_spec in R. destruct R as [-> R]. eapply not_always; [exact E |].
  intros H. specialize (H eq_refl). rewrite H in R. discriminate R.
Qed.

(** *** Local stores *)
(** The index is loaded, the chunk is found and read, its hash differs, the store is scanned, the chunk is read. *)
Definition local_ans : list rans := [Yes; Yes; Yes; Yes; Yes; Yes; Yes; Yes; Yes; No 0].
Lemma local_run : let r := local_life false true 1 (r_init local_ans) in
  (fst r, r_live (snd r), map o_kind (r_gone (snd r)), r_peak (snd r)) =
  (Ok true, [mkObj 1 KFd []], [KMem; KMem; KMem; KFd], 2).
Proof. vm_compute. reflexivity. Qed.
Lemma local_fd_run : local_life false false 0 (r_init []) = (Ok true, mkRst [mkObj 1 KFd []] 3 [] [mkObj 0 KMem []; mkObj 2 KMem []] 1).
Proof. vm_compute. reflexivity. Qed.
Lemma local_fd_refuted : ~ always (local_life false false 0) (fun _ live _ _ => live = []).
Proof. eapply not_always; [exact local_fd_run |]. discriminate. Qed.
Lemma local_scan_run : local_life false false 0 (r_init [Yes; Yes; Yes; No 0]) =
  (Ok false, mkRst [mkObj 2 KMem []; mkObj 1 KFd []] 3 [] [mkObj 0 KMem []] 1).
Proof. vm_compute. reflexivity. Qed.
Lemma local_scan_refuted : ~ always (local_life false false 0) (fun r live _ _ => r = false -> count KMem live = 0).
Proof. eapply not_always; [exact local_scan_run |]. cbn. intros H. specialize (H eq_refl). discriminate H. Qed.
(** A character device with an index: the scan after the hash mismatch fails before the index is replaced, and the
    index is freed a second time with the store. *)
Definition odd_ans : list rans := [Yes; Yes; Yes; Yes; Yes; Yes; Yes; Yes; Yes; No 0].
Lemma local_odd_run : fst (local_life true true 1 (r_init odd_ans)) = UB.
Proof. vm_compute. reflexivity. Qed.

(** *** Runs *)
Definition args3 : list rarg := [ATarget; AHttp env_url [PEncrypt (SText hex64)]; ALocal false true].
Lemma run_run : let r := run 4 args3 reqs1 (r_init []) in
  (fst r, map o_kind (r_live (snd r)), r_peak (snd r), n_local args3) = (Ok true, [KFd; KMem; KFd; KMem; KFd], 4, 1).
Proof. vm_compute. reflexivity. Qed.
Lemma run_ok : forallb (fun a => negb (is_odd a)) args3 = true.
Proof. reflexivity. Qed.
(** index, header, target (2), chain (2), store (8), entry; not there, not repeated; the store is asked; freed. *)
Definition run_odd_ans : list rans := repeat Yes 13 ++ [No 0; No 0; Yes; Yes; Yes; No 0].
Lemma run_odd_run : fst (run 2 [ALocal true true] reqs1 (r_init run_odd_ans)) = UB.
Proof. vm_compute. reflexivity. Qed.

(** *** The kernel hash *)
Lemma kcapi_run : let r := kcapi false 3 (r_init [Yes; Yes; Yes; Yes; No 0]) in
  (fst r, length (r_gone (snd r)), r_peak (snd r)) = (Ok tt, 2, 2).
Proof. vm_compute. reflexivity. Qed.

(** *** Counters *)
Definition site_a : bytes := bs "http://h/x".
Definition argv3 : list bytes := [bs "casync"; bs "extract"; bs "--store=" ++ site_a; bs "--store=" ++ site_a; bs "--store=" ++ site_a; bs "i"; bs "t"].
Definition argv3' : list bytes := argv11 [site_a; site_a; site_a].
Definition trace3 : list tev := [TAnswer 2 (Some 9%N); TAnswer 1 None; TAnswer 0 (Some 0%N); TAnswer 0 (Some 5%N)].
(** The number of stores after the command line was read. *)
Definition chain_of (r : outcome init_res) : option nat :=
  match r with Ok (InitOk su) => option_map (@length _) (su_store su) | _ => None end.
Lemma init_csn : chain_of (fst (init toy0 argv3' w13)) = Some 3.
Proof. vm_compute. reflexivity. Qed.
Lemma init_casync : chain_of (fst (init toy0 argv3 w13)) = Some 3.
Proof. vm_compute. reflexivity. Qed.
Lemma report_csn : report (hint_of argv3') 3 trace3 = [Some 1%N; Some 0%N; Some 1%N].
Proof. vm_compute. reflexivity. Qed.
Lemma report_casync : report (hint_of argv3) 3 trace3 = [Some 1%N; Some 0%N; None].
Proof. vm_compute. reflexivity. Qed.
Lemma report_refuted : exists E argv w su w' chain tr i, init E argv w = (Ok (InitOk su), w') /\ su_store su = Some chain /\
  i < length chain /\ nth_error (report (hint_of argv) (length chain) tr) i = Some None.
Proof.
  pose proof init_casync as R. destruct (init toy0 argv3 w13) as [o w'] eqn:E. cbn [fst] in R.
  destruct o as [[su| |]| | |]; try discriminate R. cbn [chain_of] in R. destruct (su_store su) as [chain|] eqn:Es; [|discriminate R].
  cbn [option_map] in R. injection R as R. exists toy0, argv3, w13, su, w', chain, trace3, 2.
  split; [exact E|]. split; [exact Es|]. rewrite R, report_casync. split; [lia|reflexivity].
Qed.
