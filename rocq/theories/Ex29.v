(** A resumed update with a damaged image, for C94. *)
From Verif Require Import Base Lib SpecBasic SpecCrypto SpecEnv Utils Discr Chunker Encrypt Caibx StoreHttp Chain MainProg SpecChunker SpecCaibx SpecStore SpecHttp SpecMain SpecRun SpecAvail SpecProgress SpecDelta SpecSupply SpecResume SpecUpdate SpecMend
  PfBasic PfKeyspec PfCaibx PfCaibx2 PfIndex PfChunkProps PfStart PfUpdate PfRepair Toy Ex1 Ex2 Ex4 Ex5 Ex6 Ex8 Ex9 Ex26 Ex28.
Local Open Scope N_scope.

(** csn i t s:j http://h/x.  "i" is the index of [new29]; the target "t" holds its first piece, then other bytes.  "j" is the index of [old29]; in
    "s" the first byte of its second piece has been changed.  The server has that piece and nothing else. *)
Definition x0 : bytes := repeat 4 80.
Definition new29 : bytes := x0 ++ x1 ++ x2 ++ x3.
Definition old29 : bytes := x1 ++ x2 ++ x3.
Definition bad29 : bytes := x1 ++ bad2 ++ x3.
Definition E29 : env := shop [x2].
Definition argv29 : list bytes := [bs "csn"; bs "i"; bs "t"; bs "s:j"; site].
Definition w29 (n : nat) : world :=
  toy_world [(105%nat, casync_index E29 0 p_ex 45 new29); (106%nat, casync_index E29 0 p_ex 45 old29); (115%nat, bad29); (116%nat, x0 ++ [7; 7])] n.
Lemma chunks29 : chunks p_ex 45 new29 = [x0; x1; x2; x3] /\ chunks p_ex 45 old29 = [x1; x2; x3] /\ chunks p_ex 45 bad29 = [x1; bad2; x3].
Proof. vm_compute. repeat split; reflexivity. Qed.
Lemma run29 : let r := main E29 argv29 (w29 60) in (fst r, w_files (snd r) 116%nat, asked_of 1 (w_trace (snd r))) = (Ok 0, new29, [toyH x2]).
Proof. vm_compute. reflexivity. Qed.

Lemma files29 n : files_ok (w29 n).
Proof.
  intros i. unfold w29, toy_world, files_of. cbn [w_files find fst].
  destruct (Nat.eqb_spec 105 i); [cbn [snd]; split; [apply small_bytes; vm_compute; reflexivity|vm_compute; reflexivity]|].
  destruct (Nat.eqb_spec 106 i); [cbn [snd]; split; [apply small_bytes; vm_compute; reflexivity|vm_compute; reflexivity]|].
  destruct (Nat.eqb_spec 115 i); [cbn [snd]; split; [apply small_bytes; vm_compute; reflexivity|vm_compute; reflexivity]|].
  destruct (Nat.eqb_spec 116 i); cbn [snd]; (split; [apply small_bytes; vm_compute; reflexivity|vm_compute; reflexivity]).
Qed.
Lemma valid29 n : valid_index (w_files (w29 n) 105%nat) p_ex 4.
Proof.
  change (w_files (w29 n) 105%nat) with (casync_index E29 0 p_ex 45 new29). unfold casync_index. destruct chunks29 as (-> & _).
  change 4 with (N.of_nat (length (toc E29 0 [x0; x1; x2; x3]))). apply index_file_valid; [exists false, false, false; reflexivity|vm_compute; repeat split; discriminate|apply toc_ids; apply (proj1 (shop_ok [x2]))|vm_compute; reflexivity].
Qed.
Lemma sane29 n : sane E29 argv29 (w29 n).
Proof.
  constructor.
  - apply shop_ok.
  - apply server26. intros P [<-|[]]. vm_compute. reflexivity.
  - intros v s X. discriminate X.
  - apply files29.
  - change (cmd_stores argv29) with [bs "s:j"; site]. apply Forall_forall. intros a [<-|[<-|[]]]; apply no_nul_b; vm_compute; reflexivity.
  - intros X. vm_compute in X. discriminate X.
  - intros ino X Y. vm_compute in X, Y. congruence.
  - intros ino arg path X [<-|[<-|[]]] (ip & HA) Y; vm_compute in HA; [|discriminate HA]. injection HA as <- <-. vm_compute in X, Y. congruence.
  - intros ino q k arg path X HV _ _. assert (ino = 105%nat) as -> by (vm_compute in X; congruence). destruct (valid_same _ _ _ _ _ (valid29 n) HV) as (-> & _). exists 45. exact disc_ex.
Qed.
Definition need29 : nat := (start_cost E29 argv29 (w29 0) + enough_at (request_cost E29 argv29 (w29 0)) 4 2)%nat.
Lemma costs29 E argv w w' : (forall i, w_files w' i = w_files w i) -> start_cost E argv w' = start_cost E argv w /\ request_cost E argv w' = request_cost E argv w.
Proof.
  intros Hf. assert (Z : forall q, size_at E w' q = size_at E w q) by (intros q; unfold size_at; destruct (e_open E q); [now rewrite Hf|reflexivity]). split.
  - unfold start_cost. f_equal. f_equal. apply map_ext. intros a. now apply open_cost_files.
  - unfold request_cost. do 3 f_equal. apply map_ext. intros a. unfold file_size. destruct (classify_arg _ a); auto.
Qed.
Lemma old29_ok n : blen old29 <= blen bad29 /\ 5 * p_avg p_ex <= 6 * blen bad29 /\ blen bad29 < 2 ^ 60 /\ w_files (w29 n) 115%nat = bad29 /\ w_files (w29 n) 106%nat = casync_index E29 0 p_ex 45 old29.
Proof. split; [vm_compute; discriminate|]. split; [vm_compute; discriminate|]. split; [vm_compute; reflexivity|]. split; reflexivity. Qed.
Lemma repair29 n : (need29 <= n)%nat -> repair_run E29 argv29 (w29 n) 0 p_ex 45 old29 bad29 new29 1 116.
Proof.
  intros Hneed. destruct (old29_ok n) as (O1 & O2 & O3 & O4 & O5).
  assert (Gp : good_params p_ex) by (vm_compute; repeat split; discriminate). assert (Kf : known_flags 0) by (exists false, false, false; reflexivity). assert (Mx : p_max p_ex <= BUF_SIZE) by (vm_compute; discriminate).
  assert (Cl : classify_arg (cmd_target argv29) (bs "s:j") = ArgLocal (bs "s") (Some (bs "j"))) by (vm_compute; reflexivity).
  apply mkRepair.
  - apply sane29.
  - reflexivity.
  - cbn [length argv29]. lia.
  - reflexivity.
  - reflexivity.
  - reflexivity.
  - exact Kf.
  - exact Gp.
  - exact disc_ex.
  - exact Mx.
  - exists 105%nat. split; [reflexivity|]. split; [reflexivity|discriminate].
  - vm_compute. discriminate.
  - discriminate.
  - reflexivity.
  - split; [vm_compute; discriminate|exact Logic.I].
  - destruct chunks29 as (-> & _). exists [7; 7]. reflexivity.
  - change (cmd_stores argv29) with [bs "s:j"; site]. constructor; [|constructor; [|constructor]].
    + right. exists (bs "s"), (bs "j"), 115%nat, 106%nat, (N.of_nat (length (chunks p_ex 45 old29))).
      apply (bad_mendable E29 argv29 (w29 n) 0 p_ex 45 old29 bad29 (bs "s:j") (bs "s") (bs "j") 115 106 (sane29 n) Kf Gp Mx Cl eq_refl O4 ltac:(discriminate) eq_refl O5 ltac:(discriminate) ltac:(discriminate) O1 O2 O3).
    + left. apply us_remote. right. split; [vm_compute; reflexivity|]. intros X. assert (Y : existsb (fun c => c =? 35) site = true) by (apply existsb_exists; exists 35; auto). vm_compute in Y. discriminate Y.
  - exists (bs "s:j"), (bs "s"), (bs "j"), 115%nat, 106%nat. split; [now left|]. split; [exact Cl|]. repeat (split; [reflexivity|]). split; [discriminate|]. split; [reflexivity|]. split; [exact O5|discriminate].
  - discriminate.
  - exact O1.
  - exact O2.
  - exact O3.
  - exists site. split; [right; now left|]. split; [vm_compute; reflexivity|]. intros base key c Hd Hc. destruct (denotes26 _ _ _ _ Hd) as (-> & ->).
    destruct chunks29 as (X1 & -> & ->). rewrite X1 in Hc. cbn [skipn] in Hc. destruct Hc as [<-|[<-|[<-|[]]]].
    + right. split; [split; now left|]. apply lacks26. intros [X|[]]. vm_compute in X. discriminate X.
    + left. apply has26; [constructor; [intros []|constructor]|now left|discriminate|vm_compute; reflexivity].
    + right. split; [split; right; right; now left|]. apply lacks26. intros [X|[]]. vm_compute in X. discriminate X.
  - reflexivity.
  - apply Forall_forall. intros x Hx. apply repeat_spec in Hx. now subst.
  - destruct chunks29 as (-> & _). change (w_io (w29 n)) with (repeat (IoN 1000) n). rewrite transfers_repeat. destruct (costs29 E29 argv29 (w29 0) (w29 n) (fun i => eq_refl)) as (-> & ->). exact Hneed.
Qed.
