(** An image of which one byte changed, for C82. *)
From Verif Require Import Base Lib SpecBasic SpecEnv Utils Discr Chunker Caibx StoreHttp Chain MainProg SpecChunker SpecCaibx SpecStore SpecHttp SpecMain SpecRun SpecProgress SpecDelta SpecEdit
  PfBasic PfKeyspec PfCaibx PfCaibx2 PfDelta Toy Ex1 Ex2 Ex4 Ex6 Ex8 Ex19.
Local Open Scope N_scope.

(** The old image is c1 ++ c2 ++ c3; in the new one the first byte of [c2] is another. *)
Definition c4 : bytes := 200 :: tl c2.
Definition img21 : bytes := c1 ++ c4 ++ c3.
Lemma bound_one c : chunks p_ex 45 c = [c] -> (48 <=? length c)%nat = true -> cut_here p_ex 45 c = true -> boundary_at_end p_ex 45 c.
Proof. intros A B C. right. exists [], c. split; [exact A|]. split; [now apply Nat.leb_le|exact C]. Qed.
Lemma edit21 : edit p_ex 45 c1 c4 c2 c3 data_ex img21.
Proof. constructor; [vm_compute; reflexivity|reflexivity|..]; apply bound_one; vm_compute; reflexivity. Qed.
Lemma chunks21 : chunks p_ex 45 img21 = [c1; c4; c3]. Proof. vm_compute. reflexivity. Qed.

(** *** csn i t s u: the old image "s" is scanned, then a file "u" that holds the new chunk.  With "s:j" the old
    image comes with its index, and more data follows it in the file. *)
Definition csn_su : list bytes := [bs "csn"; bs "i"; bs "t"; bs "s"; bs "u"].
Definition csn_sj : list bytes := [bs "csn"; bs "i"; bs "t"; bs "s:j"; bs "u"].
Definition l21 : list (N * bytes) := [(80, toyH c1); (145, toyH c4); (160, toyH c3)].
Definition l_old : list (N * bytes) := [(80, toyH c1); (145, toyH c2); (160, toyH c3)].
Definition w21 (rest : bytes) : world :=
  toy_world [(115%nat, data_ex ++ rest); (105%nat, index_file 0 p_ex l21); (106%nat, index_file 0 p_ex l_old); (116%nat, c1 ++ c1); (117%nat, c4)] 400.
Lemma l21_ok : Forall (fun e => good_id (snd e)) l21. Proof. good_ids. Qed.
Lemma l_old_ok : Forall (fun e => good_id (snd e)) l_old. Proof. good_ids. Qed.
Definition more : bytes := [1; 2; 3].
Lemma files21 rest : rest = [] \/ rest = more -> files_ok (w21 rest).
Proof.
  intros Hr i. unfold w21, toy_world, files_of. cbn [w_files find fst].
  destruct (Nat.eqb_spec 115 i); [cbn [snd]; destruct Hr as [->| ->]; (split; [apply small_bytes|]; vm_compute; reflexivity)|].
  destruct (Nat.eqb_spec 105 i); [cbn [snd]; split; [apply index_file_ok, l21_ok|]; unfold blen; rewrite index_file_length by exact l21_ok; vm_compute; reflexivity|].
  destruct (Nat.eqb_spec 106 i); [cbn [snd]; split; [apply index_file_ok, l_old_ok|]; unfold blen; rewrite index_file_length by exact l_old_ok; vm_compute; reflexivity|].
  destruct (Nat.eqb_spec 116 i); [cbn [snd]; split; [apply small_bytes|]; vm_compute; reflexivity|].
  destruct (Nat.eqb_spec 117 i); cbn [snd]; [split; [apply small_bytes|]; vm_compute; reflexivity|split; [constructor|vm_compute; reflexivity]].
Qed.
Lemma valid21 rest : valid_index (w_files (w21 rest) 105%nat) p_ex 3. Proof. apply (index_valid l21 l21_ok). cbn; lia. Qed.
Lemma old_valid21 rest : valid_index (w_files (w21 rest) 106%nat) p_ex 3. Proof. apply (index_valid l_old l_old_ok). cbn; lia. Qed.
Lemma sane21 rest argv : rest = [] \/ rest = more -> argv = csn_su \/ argv = csn_sj -> sane toy0 argv (w21 rest).
Proof.
  intros Hr Ha. constructor.
  - apply toy_ok.
  - apply toy_server_ok.
  - intros v s X. discriminate.
  - now apply files21.
  - destruct Ha as [->| ->]; apply Forall_forall; intros a [<-|[<-|[]]]; apply no_nul_b; vm_compute; reflexivity.
  - destruct Ha as [->| ->]; intros X; vm_compute in X; discriminate X.
  - destruct Ha as [->| ->]; intros ino X Y; vm_compute in X, Y; congruence.
  - destruct Ha as [->| ->]; intros ino arg path X [<-|[<-|[]]] (ip & HA) Y; vm_compute in HA; injection HA as <- <-; vm_compute in X, Y; congruence.
  - intros ino p k arg path X HV _ _. assert (ino = 105%nat) as -> by (destruct Ha as [->| ->]; vm_compute in X; congruence). destruct (valid_same _ _ _ _ _ (valid21 rest) HV) as (-> & _). exists 45. exact disc_ex.
Qed.
Lemma describes21 : describes toy0 (index_file 0 p_ex l21) 3 (chunks p_ex 45 img21).
Proof.
  rewrite chunks21. split; [reflexivity|]. intros i P HP. assert (Hi : (i < 3)%nat) by (change 3%nat with (length [c1; c4; c3]); apply nth_error_Some; congruence).
  destruct i as [|[|[|i]]]; [..|lia]; cbn [nth_error] in HP; injection HP as <-; vm_compute; repeat split; reflexivity.
Qed.
Lemma describes_old : describes toy0 (index_file 0 p_ex l_old) 3 (chunks p_ex 45 data_ex).
Proof.
  rewrite chunks_s. split; [reflexivity|]. intros i P HP. assert (Hi : (i < 3)%nat) by (change 3%nat with (length [c1; c2; c3]); apply nth_error_Some; congruence).
  destruct i as [|[|[|i]]]; [..|lia]; cbn [nth_error] in HP; injection HP as <-; vm_compute; repeat split; reflexivity.
Qed.
Lemma calm21 rest : hash_reliable toy0 (w21 rest) /\ error_free (w_io (w21 rest)) /\ ~ In false (w_alloc (w21 rest)).
Proof. split; [now apply toy_reliable|]. split; [apply Forall_forall; intros x Hx; apply repeat_spec in Hx; now subst|intros []]. Qed.
Lemma met21 : sane toy0 csn_su (w21 []) /\ hash_reliable toy0 (w21 []) /\ error_free (w_io (w21 [])) /\ ~ In false (w_alloc (w21 [])) /\ e_open toy0 (cmd_index csn_su) = Some 105%nat /\
  valid_index (w_files (w21 []) 105%nat) p_ex 3 /\ describes toy0 (w_files (w21 []) 105%nat) (N.to_nat 3) (chunks p_ex 45 img21) /\ edit p_ex 45 c1 c4 c2 c3 data_ex img21 /\
  nth_error (cmd_stores csn_su) 0 = Some (bs "s") /\ classify_arg (cmd_target csn_su) (bs "s") = ArgLocal (bs "s") None /\ e_open toy0 (bs "s") = Some 115%nat /\
  w_files (w21 []) 115%nat = data_ex /\ disc_of p_ex 45 /\ p_max p_ex <= BUF_SIZE.
Proof.
  destruct (calm21 []) as (A & B & C). split; [apply sane21; now left|]. split; [exact A|]. split; [exact B|]. split; [exact C|]. split; [reflexivity|]. split; [apply valid21|].
  split; [exact describes21|]. split; [exact edit21|]. split; [reflexivity|]. split; [reflexivity|]. split; [reflexivity|]. split; [exact (app_nil_r data_ex)|]. split; [exact disc_ex|vm_compute; discriminate].
Qed.
Lemma met21j : sane toy0 csn_sj (w21 more) /\ hash_reliable toy0 (w21 more) /\ error_free (w_io (w21 more)) /\ ~ In false (w_alloc (w21 more)) /\ e_open toy0 (cmd_index csn_sj) = Some 105%nat /\
  valid_index (w_files (w21 more) 105%nat) p_ex 3 /\ describes toy0 (w_files (w21 more) 105%nat) (N.to_nat 3) (chunks p_ex 45 img21) /\ edit p_ex 45 c1 c4 c2 c3 data_ex img21 /\
  nth_error (cmd_stores csn_sj) 0 = Some (bs "s:j") /\ classify_arg (cmd_target csn_sj) (bs "s:j") = ArgLocal (bs "s") (Some (bs "j")) /\ e_open toy0 (bs "s") = Some 115%nat /\
  e_open toy0 (bs "j") = Some 106%nat /\ e_kind toy0 106 <> KOther /\ w_files (w21 more) 115%nat = data_ex ++ more /\ valid_index (w_files (w21 more) 106%nat) p_ex 3 /\
  describes toy0 (w_files (w21 more) 106%nat) (N.to_nat 3) (chunks p_ex 45 data_ex) /\ p_max p_ex <= BUF_SIZE.
Proof.
  destruct (calm21 more) as (A & B & C). split; [apply sane21; now right|]. split; [exact A|]. split; [exact B|]. split; [exact C|]. split; [reflexivity|]. split; [apply valid21|].
  split; [exact describes21|]. split; [exact edit21|]. split; [reflexivity|]. split; [reflexivity|]. split; [reflexivity|]. split; [reflexivity|]. split; [discriminate|]. split; [reflexivity|].
  split; [apply old_valid21|]. split; [exact describes_old|vm_compute; discriminate].
Qed.
(** The first entry is in place, the third comes from the old image; the second store is asked once. *)
Definition sum21 argv rest := let r := main toy0 argv (w21 rest) in (fst r, w_files (snd r) 116%nat, asked_of 1 (w_trace (snd r)), asked_of 0 (w_trace (snd r))).
Lemma run21 : sum21 csn_su [] = (Ok 0, img21, [toyH c4], [toyH c3; toyH c4]). Proof. vm_compute. reflexivity. Qed.
Lemma run21j : sum21 csn_sj more = (Ok 0, img21, [toyH c4], [toyH c3; toyH c4]). Proof. vm_compute. reflexivity. Qed.

(** *** C83: both runs succeed. *)
Lemma wf21 : well_formed (index_file 0 p_ex l21) 3.
Proof. intros i Hi. destruct i as [|[|[|i]]]; [..|cbn in Hi; lia]; (split; [vm_compute; discriminate|]; split; [vm_compute; reflexivity|]; intros Hs He; vm_compute in He; discriminate He). Qed.
Lemma good21 rest argv : argv = csn_su \/ argv = csn_sj -> good_index toy0 argv (w21 rest).
Proof.
  intros Ha ino p k X HV. assert (ino = 105%nat) as -> by (destruct Ha as [->| ->]; vm_compute in X; congruence). destruct (valid_same _ _ _ _ _ (valid21 rest) HV) as (_ & ->). exact wf21.
Qed.
Lemma ok21 : fst (main toy0 csn_su (w21 [])) = Ok 0.
Proof. pose proof run21 as R. unfold sum21 in R. cbv zeta in R. do 3 (apply pair_equal_spec in R; destruct R as (R & _)). exact R. Qed.
Lemma ok21j : fst (main toy0 csn_sj (w21 more)) = Ok 0.
Proof. pose proof run21j as R. unfold sum21 in R. cbv zeta in R. do 3 (apply pair_equal_spec in R; destruct R as (R & _)). exact R. Qed.
Lemma met83 : (sane toy0 csn_su (w21 []) /\ good_index toy0 csn_su (w21 []) /\ hash_reliable toy0 (w21 []) /\ fst (main toy0 csn_su (w21 [])) = Ok 0) /\
  (sane toy0 csn_sj (w21 more) /\ good_index toy0 csn_sj (w21 more) /\ hash_reliable toy0 (w21 more) /\ fst (main toy0 csn_sj (w21 more)) = Ok 0) /\
  e_open toy0 (cmd_index csn_su) = Some 105%nat /\ e_open toy0 (cmd_index csn_sj) = Some 105%nat /\ w_files (w21 []) 105%nat = w_files (w21 more) 105%nat /\
  e_open_rw toy0 (cmd_target csn_su) = Some 116%nat /\ e_open_rw toy0 (cmd_target csn_sj) = Some 116%nat /\ valid_index (w_files (w21 []) 105%nat) p_ex 3.
Proof.
  split; [split; [apply sane21; now left|]; split; [apply good21; now left|]; split; [apply calm21|]; exact ok21|].
  split; [split; [apply sane21; now right|]; split; [apply good21; now right|]; split; [apply calm21|]; exact ok21j|].
  split; [reflexivity|]. split; [reflexivity|]. split; [reflexivity|]. split; [reflexivity|]. split; [reflexivity|]. apply valid21.
Qed.
