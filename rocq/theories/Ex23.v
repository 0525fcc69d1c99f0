(** An image whose chunks come from two stores, for C86. *)
From Verif Require Import Base Lib SpecBasic SpecCrypto SpecEnv Utils Discr Chunker Encrypt Caibx StoreHttp Chain MainProg SpecChunker SpecCaibx SpecStore SpecHttp SpecMain SpecRun SpecAvail SpecProgress SpecDelta SpecSupply
  PfBasic PfKeyspec PfCaibx PfCaibx2 PfIndex PfAvail PfDelta PfSupply PfStart Toy Ex1 Ex2 Ex4 Ex5 Ex6 Ex8 Ex9 Ex19.
Local Open Scope N_scope.

(** csn i t a:j http://h/x: the server has [pa] only and answers 404 for [pb]; the old image "a" with the index "j" has [pb] only. *)
Definition E23 : env := mirror [pa].
Lemma server23 : server_ok E23.
Proof.
  intros u k s. cbn [E23 mirror toy_env e_server]. unfold srv9. destruct (Nat.eqb _ _); [|intros []]. destruct (parse_hex _); [|intros []].
  destruct (find _ [pa]) as [P|] eqn:F; [|intros []]. apply find_some in F as (F & _). cbn [p_segs]. destruct F as [<-|[]]; intros [<-|[<-|[]]]; vm_compute; reflexivity.
Qed.
Lemma sane23 n : sane E23 argv19 (w19 n).
Proof. destruct (sane19 n) as [S1 S2 S3 S4 S5 S6 S7 S8 S9]. constructor; [exact S1|exact server23|exact S3|exact S4|exact S5|exact S6|exact S7|exact S8|exact S9]. Qed.
Lemma described23 n : described E23 argv19 (w19 n) pieces9.
Proof.
  intros ino p k X HV. assert (ino = 105%nat) as -> by (vm_compute in X; congruence).
  destruct (valid_same _ _ _ _ _ (valid19 n) HV) as (-> & ->). change (w_files (w19 n) 105%nat) with (index_file 0 p_ex l9). split; [reflexivity|]. intros i P HP.
  assert (Hi : (i < 3)%nat) by (change 3%nat with (length pieces9); apply nth_error_Some; congruence).
  destruct i as [|[|[|i]]]; [..|lia]; cbn [nth_error pieces9] in HP; injection HP as <-; vm_compute; repeat split; reflexivity.
Qed.

(** Every third answer is one. *)
Lemma third m : exists q, (q < 10)%nat /\ (forall i, (i < q)%nat -> ((m + i) mod 3 <> 2)%nat) /\ ((m + q) mod 3 = 2)%nat.
Proof.
  pose proof (Nat.mod_upper_bound m 3 ltac:(discriminate)) as Hm. pose proof (Nat.div_mod m 3 ltac:(discriminate)) as Dm.
  assert (MM : forall i r, (m + i = 3 * (m / 3) + r)%nat -> (r < 3)%nat -> ((m + i) mod 3 = r)%nat).
  { intros i r X Y. rewrite X, Nat.mul_comm, Nat.add_comm, Nat.mod_add by discriminate. now apply Nat.mod_small. }
  exists (2 - m mod 3)%nat. split; [lia|]. split.
  - intros i Hi. rewrite (MM i (m mod 3 + i)%nat) by lia. lia.
  - apply MM; lia.
Qed.
Lemma early23 url k : (k mod 3 <> 2)%nat -> fails_early E23 url k.
Proof. intros H. unfold fails_early. cbn [E23 mirror toy_env e_server]. unfold srv9. apply Nat.eqb_neq in H. rewrite H. split; [reflexivity|left; reflexivity]. Qed.
Lemma has23 : has_chunk E23 site None pa.
Proof.
  exists pa. split; [apply (decodes9 [pa])|]. split; [vm_compute; discriminate|]. cbn [E23 mirror toy_env e_H]. intros url Hu m. apply url9 in Hu.
  destruct (third m) as (q & Q1 & Q2 & Q3). exists q. split; [exact Q1|]. split; [intros i Hi; apply early23, Q2, Hi|].
  unfold serves, E23, mirror. cbn [toy_env e_server]. unfold srv9. apply Nat.eqb_eq in Q3. rewrite Q3, Hu. vm_compute. repeat split; try reflexivity. intros [Y|[Y|[]]]; discriminate Y.
Qed.
Lemma lacks23 : lacks_chunk E23 site None (e_H E23 pb).
Proof.
  cbn [E23 mirror toy_env e_H]. intros url Hu m. apply url9 in Hu. destruct (third m) as (q & Q1 & Q2 & Q3). exists q. split; [exact Q1|]. split; [intros i Hi; apply early23, Q2, Hi|].
  cbn zeta. unfold E23, mirror. cbn [toy_env e_server]. unfold srv9. apply Nat.eqb_eq in Q3. rewrite Q3, Hu. vm_compute. split; [left; reflexivity|reflexivity].
Qed.
Lemma seeded23 n : seeded E23 (w19 n) (cmd_target argv19) p_ex arg19 (e_H E23 pb).
Proof.
  assert (X : e_H E23 pb = ent_id (w_files (w19 n) 105%nat) 1) by (vm_compute; reflexivity). rewrite X. destruct (seeded19 n) as [path ino D c X1 X2 X3 X4 X5|path ip ino iino p m i X1 X2 X3 X4 X5 X6 X7 X8 X9 X10 X11].
  - exact (seed_scan E23 (w19 n) (cmd_target argv19) p_ex arg19 path ino D c X1 X2 X3 X4 X5).
  - exact (seed_index E23 (w19 n) (cmd_target argv19) p_ex arg19 path ip ino iino p m i X1 X2 X3 X4 X5 X6 X7 X8 X9 X10 X11).
Qed.
Lemma denotes23 w base key : store_denotes E23 w site base key -> base = site /\ key = None.
Proof.
  intros (url & params & Hu & Hb & Hk).
  assert (N35 : ~ In 35 site). { intros X. assert (Y : existsb (fun c => c =? 35) site = true) by (apply existsb_exists; exists 35; auto). vm_compute in Y. discriminate Y. }
  destruct Hu as [(<- & -> & _)|(Hu & _)]; [|elim N35; rewrite Hu; apply in_or_app; right; now left].
  split.
  - destruct Hb as [Hb|(<- & _)]; [|reflexivity]. apply (f_equal (@rev N)) in Hb. rewrite rev_app_distr in Hb. vm_compute in Hb. discriminate Hb.
  - inversion Hk; reflexivity.
Qed.
Lemma supplied23 n P : In P pieces9 -> exists arg, In arg (cmd_stores argv19) /\ supplies E23 (w19 n) (cmd_target argv19) p_ex pieces9 arg P.
Proof.
  assert (A : supplies E23 (w19 n) (cmd_target argv19) p_ex pieces9 site pa).
  { apply sup_http; [vm_compute; reflexivity|]. intros base key Hd. destruct (denotes23 _ _ _ Hd) as (-> & ->). split; [exact has23|].
    intros P' [<-|[<-|[<-|[]]]]; [left; exact has23|right; exact lacks23|left; exact has23]. }
  intros [<-|[<-|[<-|[]]]]; [exists site|exists arg19|exists site]; (split; [cbn; auto|]); [exact A| |exact A]. apply sup_local, seeded23.
Qed.
Lemma usable23 n : Forall (usable E23 (w19 n) (cmd_target argv19) p_ex) (cmd_stores argv19).
Proof.
  constructor; [eapply us_index; [vm_compute; reflexivity|apply seeded23]|]. constructor; [|constructor]. apply us_remote. right. split; [vm_compute; reflexivity|].
  intros X. assert (Y : existsb (fun c => c =? 35) site = true) by (apply existsb_exists; exists 35; auto). vm_compute in Y. discriminate Y.
Qed.
Lemma room23 n ino : e_open_rw E23 (cmd_target argv19) = Some ino -> has_room E23 (w19 n) ino (blen (concat pieces9)).
Proof. intros X. split; [vm_compute; discriminate|exact Logic.I]. Qed.
Lemma quiet23 n : error_free (w_io (w19 n)) /\ w_alloc (w19 n) = [] /\ w_kcapi (w19 n) = false /\ transfers (w_io (w19 n)) = n.
Proof. split; [apply calm19|]. split; [reflexivity|]. split; [reflexivity|]. apply transfers_repeat. Qed.
Lemma cost23 n : N.of_nat (start_cost E23 argv19 (w19 n)) = 7578.
Proof.
  assert (O1 : classify_arg (cmd_target argv19) arg19 = ArgLocal (bs "a") (Some (bs "j"))) by (vm_compute; reflexivity).
  assert (O2 : classify_arg (cmd_target argv19) site = ArgHttp site) by (vm_compute; reflexivity).
  unfold start_cost. change (cmd_stores argv19) with [arg19; site]. cbn [map list_sum fold_right]. unfold open_cost. rewrite O1, O2. vm_compute. reflexivity.
Qed.
Lemma init23 n : 7578 <= N.of_nat n -> exists su w1, init E23 argv19 (w19 n) = (Ok (InitOk su), w1) /\ w_kcapi w1 = false /\ N.of_nat n - 7578 <= N.of_nat (transfers (w_io w1)).
Proof.
  intros Hn. destruct (quiet23 n) as (Q1 & Q2 & Q3 & Q4). pose proof (cost23 n) as C.
  destruct (init_usable E23 argv19 (w19 n) 105 p_ex 3 116 (sane23 n) eq_refl ltac:(cbn; lia) eq_refl) as (su & w1 & H1 & H2 & H3).
  - split; [apply files19|]. auto.
  - rewrite Q4. lia.
  - reflexivity.
  - apply valid19.
  - discriminate.
  - reflexivity.
  - reflexivity.
  - lia.
  - apply usable23.
  - exists su, w1. split; [exact H1|]. split; [exact H2|]. rewrite Q4 in H3. lia.
Qed.
(** Both stores are needed. *)
Lemma run23 : let r := main E23 argv19 (w19 60) in
  (fst r, w_files (snd r) 116%nat, fst (main E23 [bs "csn"; bs "i"; bs "t"; site] (w19 60)), fst (main E23 [bs "csn"; bs "i"; bs "t"; arg19] (w19 60))) = (Ok 0, concat pieces9, Ok 1, Ok 1).
Proof. vm_compute. reflexivity. Qed.

(** A file that is scanned: "s" of [csn_st]. *)
Lemma usable_s : Forall (usable toy0 w_run (cmd_target csn_st) p_ex) (cmd_stores csn_st).
Proof.
  constructor; [|constructor; [apply us_remote; left; vm_compute; reflexivity|constructor]].
  apply us_scan with (path := bs "s") (ino := 115%nat); [vm_compute; reflexivity|reflexivity|discriminate|vm_compute; discriminate|vm_compute; reflexivity].
Qed.
