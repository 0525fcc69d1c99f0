(** The properties of whole runs (C01-C04, C07, C09, C11). *)
From Coq Require Import Sorting.Permutation.
From Verif Require Import Base Lib Utils Sha Chunker Caibx Index StoreLocal Target StoreHttp Chain Ui MainProg
  SpecBasic SpecEnv SpecChunker SpecStore SpecHttp SpecCaibx SpecMain SpecRun
  PfUtils PfBasic PfIO PfRead PfKeyspec PfIndex PfFrame PfLocal PfHttp PfHttp2 PfCaibx PfTarget PfChain PfMain PfMain2 PfSetup PfRun PfReadonly.
Local Open Scope N_scope.

Lemma main_ok E b argv w w' : sane E argv w -> good_index E argv w -> (b = true -> hash_reliable E w) -> main E argv w = (Ok 0, w') ->
  exists wk su w1, ran E b argv w wk su w1 w' true.
Proof.
  intros HS HG Hb Hm. pose proof (wp_ok _ _ _ _ _ _ _ (wp_main E b argv w HS HG Hb) Hm) as [(H & _)|H]; [discriminate|exact H].
Qed.
Lemma main_any E b argv w : sane E argv w -> good_index E argv w -> (b = true -> hash_reliable E w) ->
  exists d, outcome_spec E b argv w d (snd (main E argv w)).
Proof.
  intros HS HG Hb. pose proof (wp_main E b argv w HS HG Hb) as H. unfold wp in H. destruct (main E argv w) as [[c| | |] w']; cbn [snd].
  - eauto.
  - destruct H as (d & H & _). eauto.
  - destruct H as (d & H & _). eauto.
  - destruct H as (d & H & _). eauto.
Qed.

(** ** C01 *)
Lemma success_authentic E argv w w' : sane E argv w -> good_index E argv w -> hash_reliable E w -> main E argv w = (Ok 0, w') ->
  exists iino tino p n, e_open E (cmd_index argv) = Some iino /\ e_open_rw E (cmd_target argv) = Some tino /\ valid_index (w_files w iino) p n /\
    forall i, (i < N.to_nat n)%nat -> ent_end (w_files w iino) i <= blen (w_files w' tino) /\
      (0 < ent_size (w_files w iino) i -> e_H E (ent_slice (w_files w iino) i (w_files w' tino)) = ent_id (w_files w iino) i).
Proof.
  intros HS HG Hb Hm. destruct (main_ok E true argv w w' HS HG ltac:(auto) Hm) as (wk & su & w1 & [R1 R2 R3 R4]).
  exists (su_index su), (t_ino (su_target su)), (su_params su), (su_n su).
  split; [apply R2|]. split; [apply R2|]. split; [apply R2|]. apply R4. reflexivity.
Qed.

(** ** Images *)
Section Image.
Variables (E : env) (f : bytes) (n : nat) (pieces : list bytes).
Hypothesis HD : describes E f n pieces.

Lemma piece_at i : (i < n)%nat -> exists P, nth_error pieces i = Some P /\ ent_end f i = ent_start f i + blen P /\ blen P < 2 ^ 32 /\ ent_id f i = e_H E P /\ ent_size f i = blen P.
Proof.
  intros Hi. destruct HD as (L & H). destruct (nth_error pieces i) as [P|] eqn:EP; [|apply nth_error_None in EP; lia].
  exists P. split; [reflexivity|]. destruct (H i P EP) as (A & B & C). repeat split; auto. unfold ent_size. lia.
Qed.
Lemma describes_wf (K : bytes -> Prop) : well_formed f n \/ collision E pieces K.
Proof.
  assert (G : forall m, (m <= n)%nat -> (forall i, (i < m)%nat -> (S i < n)%nat -> ent_id f i = ent_id f (S i) -> ent_size f i = ent_size f (S i)) \/ collision E pieces K).
  { induction m as [|m IH]; intros Hm; [left; intros; lia|]. destruct (IH ltac:(lia)) as [H|H]; [|now right].
    destruct (Nat.lt_ge_cases (S m) n) as [Hs|Hs].
    2:{ left. intros i Hi Hi2 He. apply H; auto. lia. }
    destruct (N.eq_dec (ent_size f m) (ent_size f (S m))) as [Ez|Ez].
    { left. intros i Hi Hi2 He. destruct (Nat.eq_dec i m) as [->|Hne]; [exact Ez|]. apply H; auto. lia. }
    destruct (beq (ent_id f m) (ent_id f (S m))) eqn:Eq.
    - apply beq_eq in Eq. right. destruct (piece_at m ltac:(lia)) as (P & P1 & _ & _ & P2 & P3). destruct (piece_at (S m) Hs) as (P' & P1' & _ & _ & P2' & P3').
      exists P, P'. split; [eapply nth_error_In; eauto|]. split; [intros ->; apply Ez; congruence|]. split; [congruence|]. left. eapply nth_error_In; eauto.
    - apply beq_neq in Eq. left. intros i Hi Hi2 He. destruct (Nat.eq_dec i m) as [->|Hne]; [contradiction|]. apply H; auto. lia. }
  destruct (G n (le_n n)) as [H|H]; [left|now right]. intros i Hi. destruct (piece_at i Hi) as (P & _ & P1 & P2 & _ & P3).
  split; [lia|]. split; [now rewrite P3|]. intros Hi2 He. apply H; auto.
Qed.
Lemma start_concat i : (i <= n)%nat -> N.to_nat (ent_start f i) = length (concat (firstn i pieces)).
Proof.
  induction i as [|i IH]; intros Hi; [reflexivity|]. destruct (piece_at i ltac:(lia)) as (P & P1 & P2 & _). cbn [ent_start]. rewrite P2.
  assert (Ef : firstn (S i) pieces = firstn i pieces ++ [P]).
  { clear -P1. revert i P1. induction pieces as [|x l IH]; intros [|i] H; cbn in *; try discriminate; [now injection H as ->|]. f_equal. auto. }
  rewrite Ef, concat_app, app_length. cbn [concat]. rewrite app_nil_r. rewrite <- IH by lia. unfold blen. lia.
Qed.
Lemma firstn_pieces_S i P : nth_error pieces i = Some P -> firstn (S i) pieces = firstn i pieces ++ [P].
Proof. clear HD. revert i. induction pieces as [|x l IH]; intros [|i] H; cbn in *; try discriminate; [now injection H as ->|]. f_equal. auto. Qed.
Lemma nth_image i P q : nth_error pieces i = Some P -> (q < length P)%nat -> nth_error (concat pieces) (N.to_nat (ent_start f i) + q) = nth_error P q.
Proof.
  intros HP Hq. assert (Hi : (i < n)%nat) by (destruct HD as (<- & _); apply nth_error_Some; congruence).
  rewrite start_concat by lia. rewrite <- (firstn_skipn i pieces) at 1. rewrite concat_app, nth_error_app2 by lia.
  replace (length (concat (firstn i pieces)) + q - length (concat (firstn i pieces)))%nat with q by lia.
  rewrite <- (firstn_skipn 1 (skipn i pieces)). 
  assert (Es : firstn 1 (skipn i pieces) = [P]).
  { clear -HP. revert i HP. induction pieces as [|x l IH]; intros [|i] H; cbn in *; try discriminate; [now injection H as ->|]. auto. }
  rewrite Es, concat_app. cbn [concat]. rewrite app_nil_r, nth_error_app1 by exact Hq. reflexivity.
Qed.
Lemma slices_image g : (forall i P, nth_error pieces i = Some P -> ent_slice f i g = P) -> ent_start f n <= blen g -> firstn (length (concat pieces)) g = concat pieces.
Proof.
  intros H Hg. assert (Hn : length pieces = n) by apply HD.
  assert (G : forall i, (i <= n)%nat -> firstn (N.to_nat (ent_start f i)) g = concat (firstn i pieces)).
  { induction i as [|i IH]; intros Hi; [reflexivity|]. destruct (piece_at i ltac:(lia)) as (P & P1 & P2 & _ & _ & P3).
    rewrite (firstn_pieces_S i P P1), concat_app. cbn [concat]. rewrite app_nil_r, <- IH by lia. cbn [ent_start]. rewrite P2.
    replace (N.to_nat (ent_start f i + blen P)) with (N.to_nat (ent_start f i) + N.to_nat (ent_size f i))%nat by (rewrite P3; lia).
    rewrite firstn_skipn_add. f_equal. exact (H i P P1). }
  specialize (G n (le_n n)). rewrite start_concat in G by lia. rewrite <- Hn, firstn_all in G. exact G.
Qed.

(** Data with the right length and an end piece with the right hash is the piece, or collides with it. *)
Lemma data_piece i D : (i < n)%nat -> length D = N.to_nat (ent_size f i) -> (0 < ent_size f i -> hashes E false D (ent_id f i)) ->
  (exists P, nth_error pieces i = Some P /\ D = P) \/ collision E pieces (fun y => end_piece y D).
Proof.
  intros Hi HL HH. destruct (piece_at i Hi) as (P & P1 & _ & _ & P2 & P3). rewrite P3 in *. destruct P as [|c P'].
  { left. exists []. split; [exact P1|]. destruct D; [reflexivity|]. cbn in HL. lia. }
  set (P := c :: P') in *. destruct (HH ltac:(unfold blen, P; cbn [length]; lia)) as (s & Hs & Hid). 
  destruct (list_eq_dec N.eq_dec P s) as [->|Hne].
  - left. exists s. split; [exact P1|]. destruct Hs as (p & Hp). assert (length p = O) by (subst D; rewrite app_length in HL; unfold blen in HL; lia).
    destruct p; [exact Hp|discriminate].
  - right. exists P, s. split; [eapply nth_error_In; eauto|]. split; [exact Hne|]. split; [congruence|]. right. exact Hs.
Qed.
End Image.

(** ** C02, C03: up to collisions *)
Lemma collision_mono E pieces (K K' : bytes -> Prop) : (forall y, K y -> K' y) -> collision E pieces K -> collision E pieces K'.
Proof. intros H (x & y & A & B & C & [D|D]); exists x, y; repeat split; auto. Qed.

(** Either the run ended during the set-up or it has seen a valid index. *)
Lemma main_split E argv w : sane E argv w ->
  (fst (main E argv w) <> Ok 0 /\ exists wk, started w wk /\ quiet0 wk (snd (main E argv w))) \/
  exists ino tino p n, e_open E (cmd_index argv) = Some ino /\ e_open_rw E (cmd_target argv) = Some tino /\ valid_index (w_files w ino) p n.
Proof.
  intros HS. rewrite main_init. unfold bind. pose proof (wp_init E false argv w HS ltac:(discriminate)) as H. unfold wp in H.
  destruct (init E argv w) as [[[su| |c]| | |] w1]; cbn [fst snd ret].
  - destruct H as (wk & _ & _ & HR). right. exists (su_index su), (t_ino (su_target su)), (su_params su), (su_n su). split; [apply HR|]. split; apply HR.
  - destruct H as (wk & A & B & _). left. split; [discriminate|eauto].
  - destruct H as (wk & A & B & ->). left. split; [discriminate|eauto].
  - destruct H as (_ & wk & A & B). left. split; [discriminate|eauto].
  - destruct H as (_ & wk & A & B). left. split; [discriminate|eauto].
  - destruct H as (_ & wk & A & B). left. split; [discriminate|eauto].
Qed.
Lemma described_good E argv w pieces ino p n K : described E argv w pieces -> e_open E (cmd_index argv) = Some ino -> valid_index (w_files w ino) p n ->
  good_index E argv w \/ collision E pieces K.
Proof.
  intros HD Ho HV. destruct (describes_wf E _ _ _ (HD _ _ _ Ho HV) K) as [H|H]; [left|now right].
  intros ino' p' n' Ho' HV'. assert (ino' = ino) as -> by congruence.
  destruct (HD _ _ _ Ho HV) as (L & _). destruct (HD _ _ _ Ho HV') as (L' & _). rewrite <- L', L. exact H.
Qed.

Lemma forall_or (A : Prop) (P : nat -> Prop) n : (forall i, (i < n)%nat -> P i \/ A) -> (forall i, (i < n)%nat -> P i) \/ A.
Proof.
  induction n as [|n IH]; intros H; [left; intros; lia|]. destruct (IH ltac:(intros; apply H; lia)) as [I1|I1]; [|now right].
  destruct (H n ltac:(lia)) as [I2|I2]; [|now right]. left. intros i Hi. destruct (Nat.eq_dec i n) as [->|]; [exact I2|apply I1; lia].
Qed.
Lemma forall_in_or T (A : Prop) (P : T -> Prop) l : (forall x, In x l -> P x \/ A) -> (forall x, In x l -> P x) \/ A.
Proof.
  induction l as [|a l IH]; intros H; [left; intros x []|]. destruct IH as [I1|I1]; [intros; apply H; now right| |now right].
  destruct (H a (or_introl eq_refl)) as [I2|I2]; [|now right]. left. intros x [<-|Hx]; auto.
Qed.
Lemma end_piece_slice E b d id : hashes E b d id -> hashes E false d id.
Proof. destruct b; cbn; [|auto]. intros H. exists d. split; [exists []; reflexivity|exact H]. Qed.

Lemma success_image E argv w w' pieces : sane E argv w -> described E argv w pieces -> main E argv w = (Ok 0, w') ->
  exists iino tino p n, e_open E (cmd_index argv) = Some iino /\ e_open_rw E (cmd_target argv) = Some tino /\ valid_index (w_files w iino) p n /\
    (firstn (length (concat pieces)) (w_files w' tino) = concat pieces \/
     collision E pieces (fun y => exists i, (i < N.to_nat n)%nat /\ end_piece y (ent_slice (w_files w iino) i (w_files w' tino)))).
Proof.
  intros HS HD Hm. destruct (main_split E argv w HS) as [(A & _)|(ino & tino & p & n & Ho & Ht & HV)]; [rewrite Hm in A; now elim A|].
  exists ino, tino, p, n. split; [exact Ho|]. split; [exact Ht|]. split; [exact HV|].
  destruct (described_good E argv w pieces ino p n (fun y => exists i, (i < N.to_nat n)%nat /\ end_piece y (ent_slice (w_files w ino) i (w_files w' tino))) HD Ho HV) as [HG|HC]; [|now right].
  destruct (main_ok E false argv w w' HS HG ltac:(discriminate) Hm) as (wk & su & w1 & [R1 R2 R3 R4]).
  assert (su_index su = ino) as Ei by (pose proof (rd_index _ _ _ _ _ _ _ R2); congruence).
  assert (t_ino (su_target su) = tino) as Et by (pose proof (rd_target _ _ _ _ _ _ _ R2); congruence).
  pose proof (rd_valid _ _ _ _ _ _ _ R2) as HV'. rewrite Ei in HV'.
  assert (HD1 := HD _ _ _ Ho HV). assert (su_n su = n) as En.
  { destruct HD1 as (L & _). destruct (HD _ _ _ Ho HV') as (L' & _). lia. }
  specialize (R4 eq_refl). rewrite Ei, Et, En in R4. destruct R4 as (H1 & _ & H3). set (f := w_files w ino) in *. set (g := w_files w' tino) in *.
  destruct (forall_or (collision E pieces (fun y => exists i, (i < N.to_nat n)%nat /\ end_piece y (ent_slice f i g)))
     (fun i => exists P, nth_error pieces i = Some P /\ ent_slice f i g = P) (N.to_nat n)) as [G|G]; [| |now right].
  - intros i Hi. destruct (H3 i Hi) as (A & B). fold (ent_slice f i g) in B. destruct (data_piece E f (N.to_nat n) pieces HD1 i (ent_slice f i g) Hi) as [C|C]; [| |now left|].
    + unfold ent_slice, slice. rewrite firstn_length, skipn_length. destruct (piece_at E f _ pieces HD1 i Hi) as (P & _ & P2 & _ & _ & P3). unfold blen in *. lia.
    + exact B.
    + right. eapply collision_mono; [|exact C]. cbv beta. eauto.
  - left. apply (slices_image E f (N.to_nat n) pieces HD1); [|exact H1]. intros i P HP.
    destruct (G i) as (P' & A & B); [|congruence]. destruct HD1 as (L & _). rewrite <- L. apply nth_error_Some. congruence.
Qed.

(** What a run leaves in the trace: the set-up, then the entries. *)
Lemma ran_trace E b argv w wk su w1 w' d : ran E b argv w wk su w1 w' d ->
  exists segs tr0, segmented E b (w_files w (su_index su)) (N.to_nat (su_n su)) (t_ino (su_target su)) w1 segs w' /\
    w_trace w1 = tr0 ++ w_trace w /\ Forall store_ev tr0 /\ run_trace w w' (concat (rev segs) ++ tr0).
Proof.
  intros [(k & ->) R2 (_ & _ & segs & R3) _]. destruct (rd_quiet _ _ _ _ _ _ _ R2) as (_ & _ & _ & _ & tr0 & A & B).
  cbn [w_trace set_kcapi] in A. exists segs, tr0. repeat (split; [assumption|]). destruct R3 as (T & _). unfold run_trace. now rewrite T, A, app_assoc.
Qed.
Lemma segs_in (segs : list (list tev)) ev : In ev (concat (rev segs)) -> exists j seg, nth_error segs j = Some seg /\ In ev seg.
Proof.
  rewrite in_concat. intros (seg & A & B). apply in_rev in A. apply In_nth_error in A as (j & A). eauto.
Qed.
(** Every stop: what is in the target is old, or comes from data with the right length and hash. *)
Lemma ran_bytes E b argv w wk su w1 w' d : ran E b argv w wk su w1 w' d ->
  let f := w_files w (su_index su) in let tino := t_ino (su_target su) in let n := N.to_nat (su_n su) in
  exists tr, run_trace w w' tr /\
  (forall i o D, In (TPut i o D) tr -> i = tino /\ exists j, (j < n)%nat /\ o = ent_start f j /\ length D = N.to_nat (ent_size f j) /\
      (0 < ent_size f j -> hashes E b D (ent_id f j))) /\
  forall k, nth_error (w_files w' tino) k = nth_error (w_files w tino) k \/
    exists o D q, In (TPut tino o D) tr /\ k = (N.to_nat o + q)%nat /\ (q < length D)%nat /\ nth_error (w_files w' tino) k = nth_error D q.
Proof.
  intros HR f tino n. destruct (ran_trace _ _ _ _ _ _ _ _ _ HR) as (segs & tr0 & (S1 & S2 & S3 & _) & T1 & T2 & T3). fold f tino n in S1, S2, S3.
  exists (concat (rev segs) ++ tr0). split; [exact T3|]. split.
  - intros i o D Hin. apply in_app_or in Hin as [Hin|Hin].
    2:{ rewrite Forall_forall in T2. destruct (T2 _ Hin). }
    apply segs_in in Hin as (j & seg & A & B). specialize (S3 j seg A). rewrite Forall_forall in S3. destruct (S3 _ B) as (C1 & C2 & C3 & C4).
    split; [exact C1|]. exists j. split; [|auto]. apply Nat.lt_le_trans with (length segs); [|exact S2]. apply nth_error_Some. congruence.
  - destruct HR as [R1 R2 ((_ & tr & P1 & P2) & _) _]. fold tino in P2.
    assert (tr = concat (rev segs)) as -> by (apply (app_inv_tail (w_trace w1)); congruence).
    intros k. destruct (P2 k) as [H|(o & D & q & H1 & H2)].
    + left. rewrite <- (ready_files _ _ _ _ _ _ _ R1 R2). exact H.
    + right. exists o, D, q. split; [apply in_or_app; now left|exact H2].
Qed.

Lemma always_image E argv w pieces tino : sane E argv w -> described E argv w pieces -> e_open_rw E (cmd_target argv) = Some tino ->
  let w' := snd (main E argv w) in
  exists tr, run_trace w w' tr /\
    ((forall k, nth_error (w_files w' tino) k = nth_error (w_files w tino) k \/
                (k < length (concat pieces))%nat /\ nth_error (w_files w' tino) k = nth_error (concat pieces) k) \/
     collision E pieces (fun y => exists o D, In (TPut tino o D) tr /\ end_piece y D)).
Proof.
  intros HS HD Ht w'. 
  assert (Setup : forall wk, started w wk -> quiet0 wk w' -> exists tr, run_trace w w' tr /\
    ((forall k, nth_error (w_files w' tino) k = nth_error (w_files w tino) k \/
                (k < length (concat pieces))%nat /\ nth_error (w_files w' tino) k = nth_error (concat pieces) k) \/
     collision E pieces (fun y => exists o D, In (TPut tino o D) tr /\ end_piece y D))).
  { intros wk (kc & ->) Q. pose proof (quiet0_files _ _ Q) as F. destruct Q as (_ & _ & _ & _ & tr & A & _). exists tr. split; [exact A|]. left. intros k. left. now rewrite F. }
  destruct (main_split E argv w HS) as [(_ & wk & A & B)|(ino & tino' & p & n & Ho & Ht' & HV)]; [eauto|].
  assert (tino' = tino) as -> by congruence.
  destruct (main_only_target E argv w) as (_ & tr' & T' & _). fold w' in T'.
  destruct (described_good E argv w pieces ino p n (fun y => exists o D, In (TPut tino o D) tr' /\ end_piece y D) HD Ho HV) as [HG|HC]; [|exists tr'; split; [exact T'|now right]].
  destruct (main_any E false argv w HS HG ltac:(discriminate)) as (d & [(_ & wk & A & B)|(wk & su & w1 & HR)]); [eauto|]. fold w' in HR.
  destruct (ran_bytes _ _ _ _ _ _ _ _ _ HR) as (tr & T & P & K). pose proof (ran_ready _ _ _ _ _ _ _ _ _ HR) as R2.
  assert (su_index su = ino) as Ei by (pose proof (rd_index _ _ _ _ _ _ _ R2); congruence).
  assert (t_ino (su_target su) = tino) as Et by (pose proof (rd_target _ _ _ _ _ _ _ R2); congruence).
  pose proof (rd_valid _ _ _ _ _ _ _ R2) as HV'. rewrite Ei in HV'. pose proof (HD _ _ _ Ho HV') as HD1.
  rewrite Ei, Et in P. rewrite Et in K. exists tr. split; [exact T|].
  destruct (forall_in_or _ (collision E pieces (fun y => exists o D, In (TPut tino o D) tr /\ end_piece y D))
     (fun ev => match ev with TPut i o D => exists j, nth_error pieces j = Some D /\ o = ent_start (w_files w ino) j | _ => True end) tr) as [G|G]; [| |now right].
  { intros [] Hin; auto. destruct (P _ _ _ Hin) as (-> & j & Hj & Hoff & HL & HH).
    destruct (data_piece E _ _ pieces HD1 j _ Hj HL HH) as [(Q & Q1 & Q2)|C].
    - left. exists j. subst. auto.
    - right. eapply collision_mono; [|exact C]. cbv beta. eauto. }
  left. intros k. destruct (K k) as [H|(o & D & q & H1 & H2 & H3 & H4)]; [now left|right].
  destruct (G _ H1) as (j & J1 & J2). pose proof (nth_image E _ _ pieces HD1 j D q J1 H3) as NI. rewrite <- J2, <- H2 in NI.
  split; [|congruence]. apply nth_error_Some. rewrite NI. apply nth_error_Some. exact H3.
Qed.

(** The same without reference to an image: every byte comes from data that was verified. *)
Lemma always_authentic E argv w tino : sane E argv w -> good_index E argv w -> hash_reliable E w -> e_open_rw E (cmd_target argv) = Some tino ->
  let w' := snd (main E argv w) in
  forall k, nth_error (w_files w' tino) k = nth_error (w_files w tino) k \/
    exists iino p n j D q, e_open E (cmd_index argv) = Some iino /\ valid_index (w_files w iino) p n /\ (j < N.to_nat n)%nat /\
      blen D = ent_size (w_files w iino) j /\ e_H E D = ent_id (w_files w iino) j /\
      k = (N.to_nat (ent_start (w_files w iino) j) + q)%nat /\ (q < length D)%nat /\ nth_error (w_files w' tino) k = nth_error D q.
Proof.
  intros HS HG Hb Ht w' k. destruct (main_any E true argv w HS HG ltac:(auto)) as (d & [(_ & wk & (kc & ->) & B)|(wk & su & w1 & HR)]).
  { left. fold w' in B. rewrite (quiet0_files _ _ B). reflexivity. }
  fold w' in HR. destruct (ran_bytes _ _ _ _ _ _ _ _ _ HR) as (tr & T & P & K). pose proof (ran_ready _ _ _ _ _ _ _ _ _ HR) as R2.
  assert (t_ino (su_target su) = tino) as Et by (pose proof (rd_target _ _ _ _ _ _ _ R2); congruence). rewrite Et in *.
  destruct (K k) as [H|(o & D & q & H1 & H2 & H3 & H4)]; [now left|right].
  destruct (P _ _ _ H1) as (_ & j & P1 & P2 & P3 & P4). exists (su_index su), (su_params su), (su_n su), j, D, q.
  split; [apply R2|]. split; [apply R2|]. split; [exact P1|]. split; [unfold blen; lia|]. split; [apply P4; lia|]. subst o. auto.
Qed.

(** ** C04 *)
Lemma valid_unique f p n p' n' : valid_index f p n -> valid_index f p' n' -> n = n'.
Proof. intros (A & _) (B & _). lia. Qed.
Lemma resume E argv w iino tino p n k : sane E argv w -> good_index E argv w -> hash_reliable E w -> error_free (w_io w) ->
  e_open E (cmd_index argv) = Some iino -> valid_index (w_files w iino) p n -> e_open_rw E (cmd_target argv) = Some tino ->
  (k <= N.to_nat n)%nat -> prefix_present E (w_files w iino) k (w_files w tino) ->
  exists tr, run_trace w (snd (main E argv w)) tr /\
    Forall (fun ev => match ev with
                      | TWrite _ o _ | TPut _ o _ => ent_start (w_files w iino) k <= o /\ (k < N.to_nat n)%nat
                      | TQuery _ id => exists j, (k <= j < N.to_nat n)%nat /\ id = ent_id (w_files w iino) j
                      | _ => True end) tr.
Proof.
  intros HS HG Hb He Ho HV Ht Hk Hp. destruct (main_any E true argv w HS HG ltac:(auto)) as (d & [(_ & wk & (kc & ->) & Q)|(wk & su & w1 & HR)]).
  { destruct Q as (_ & _ & _ & _ & tr & A & B). exists tr. split; [exact A|]. eapply Forall_impl; [|exact B]. intros [] H; cbn in *; tauto. }
  destruct (ran_trace _ _ _ _ _ _ _ _ _ HR) as (segs & tr0 & (S1 & S2 & S3 & _ & S5) & T1 & T2 & T3). pose proof (ran_ready _ _ _ _ _ _ _ _ _ HR) as R2.
  assert (su_index su = iino) as Ei by (pose proof (rd_index _ _ _ _ _ _ _ R2); congruence).
  assert (t_ino (su_target su) = tino) as Et by (pose proof (rd_target _ _ _ _ _ _ _ R2); congruence).
  pose proof (rd_valid _ _ _ _ _ _ _ R2) as HV'. rewrite Ei in HV'. assert (su_n su = n) as En by (eapply valid_unique; eauto).
  rewrite Ei, Et, En in *. set (f := w_files w iino) in *. pose proof (ready_files _ _ _ _ _ _ _ (ran_started _ _ _ _ _ _ _ _ _ HR) R2) as Hfil.
  assert (Hc : kc_clean w1) by (apply (rd_mode _ _ _ _ _ _ _ R2); reflexivity).
  assert (Hio : error_free (w_io w1)).
  { destruct (ran_started _ _ _ _ _ _ _ _ _ HR) as (kc & Ek). pose proof (rd_quiet _ _ _ _ _ _ _ R2) as (_ & Q & _). rewrite Ek in Q. eapply error_free_suffix; [exact Q|exact He]. }
  pose proof (HG _ _ _ Ho HV) as Hwf.
  assert (Ha : already E f tino w1 k).
  { intros j Hj. destruct (Hp j Hj) as (A & B & C). rewrite Hfil. split; [exact A|]. split; [exact B|]. destruct (sa_files _ _ _ HS tino) as (_ & L).
    destruct (Hwf j ltac:(lia)) as (W1 & _). split; [eapply N.le_lt_trans; [exact W1|eapply N.le_lt_trans; [exact B|exact L]]|]. rewrite slice_N_slice. exact C. }
  exists (concat (rev segs) ++ tr0). split; [exact T3|]. apply Forall_app. split.
  2:{ eapply Forall_impl; [|exact T2]. intros [] H; cbn in *; tauto. }
  apply Forall_forall. intros ev Hin. apply segs_in in Hin as (j & seg & A & B).
  assert (Hj : (j < N.to_nat n)%nat) by (apply Nat.lt_le_trans with (length segs); [apply nth_error_Some; congruence|exact S2]).
  destruct (Nat.lt_ge_cases j k) as [Hlt|Hge].
  - specialize (S5 k Hk Hc Hio Ha j seg Hlt A). rewrite Forall_forall in S5. destruct (S5 _ B) as (I1 & I2 & _). destruct ev; cbn in *; tauto.
  - specialize (S3 j seg A). rewrite Forall_forall in S3. specialize (S3 _ B). pose proof (ent_start_mono f (N.to_nat n) Hwf k j Hge ltac:(lia)) as Hm. destruct ev; cbn in *; auto.
    + exists j. split; [lia|exact S3].
    + destruct S3 as (_ & D & _ & _ & (W & _)). cbn in W. lia.
    + destruct S3 as (_ & W & _). lia.
Qed.

(** ** C07 *)
Lemma writes_verified E argv w : sane E argv w -> good_index E argv w -> hash_reliable E w ->
  exists tr, run_trace w (snd (main E argv w)) tr /\
  forall i o d, In (TWrite i o d) tr \/ In (TPut i o d) tr -> e_open_rw E (cmd_target argv) = Some i /\
    exists iino p n j D, e_open E (cmd_index argv) = Some iino /\ valid_index (w_files w iino) p n /\ (j < N.to_nat n)%nat /\
      let a := ent_start (w_files w iino) j in
      blen D = ent_size (w_files w iino) j /\ (0 < blen D -> e_H E D = ent_id (w_files w iino) j) /\
      a <= o /\ o + blen d <= a + blen D /\ d = slice (N.to_nat (o - a)) (length d) D.
Proof.
  intros HS HG Hb. destruct (main_any E true argv w HS HG ltac:(auto)) as (d & [(_ & wk & (kc & ->) & Q)|(wk & su & w1 & HR)]).
  { destruct Q as (_ & _ & _ & _ & tr & A & B). exists tr. split; [exact A|]. rewrite Forall_forall in B. intros i o d0 [H|H]; destruct (B _ H). }
  destruct (ran_trace _ _ _ _ _ _ _ _ _ HR) as (segs & tr0 & (S1 & S2 & S3 & _ & S5) & T1 & T2 & T3). pose proof (ran_ready _ _ _ _ _ _ _ _ _ HR) as R2.
  exists (concat (rev segs) ++ tr0). split; [exact T3|]. intros i o d0 Hin.
  assert (Hin' : In (TWrite i o d0) (concat (rev segs)) \/ In (TPut i o d0) (concat (rev segs))).
  { rewrite Forall_forall in T2. destruct Hin as [H|H]; apply in_app_or in H as [H|H]; auto; destruct (T2 _ H). }
  assert (K : exists j seg, nth_error segs j = Some seg /\ (In (TWrite i o d0) seg \/ In (TPut i o d0) seg)).
  { destruct Hin' as [H|H]; apply segs_in in H as (j & seg & A & B); eauto. }
  destruct K as (j & seg & A & B). specialize (S3 j seg A). rewrite Forall_forall in S3.
  assert (Hj : (j < N.to_nat (su_n su))%nat) by (apply Nat.lt_le_trans with (length segs); [apply nth_error_Some; congruence|exact S2]).
  assert (G : i = t_ino (su_target su) /\ exists D, length D = N.to_nat (ent_size (w_files w (su_index su)) j) /\ 
     (0 < ent_size (w_files w (su_index su)) j -> e_H E D = ent_id (w_files w (su_index su)) j) /\
     let a := ent_start (w_files w (su_index su)) j in a <= o /\ o + blen d0 <= a + blen D /\ d0 = slice (N.to_nat (o - a)) (length d0) D).
  { destruct B as [B|B]; specialize (S3 _ B); cbn in S3.
    - destruct S3 as (-> & D & D1 & D2 & W1 & W2 & W3 & W4). cbn [fst snd] in *. split; [reflexivity|]. exists D. repeat split; auto.
    - destruct S3 as (-> & W1 & W2 & W3). split; [reflexivity|]. exists d0. cbv zeta. subst o. repeat split; auto; try lia.
      rewrite N.sub_diag. unfold slice. cbn [N.to_nat skipn]. now rewrite firstn_all. }
  destruct G as (-> & D & D1 & D2 & D3). split; [apply R2|]. exists (su_index su), (su_params su), (su_n su), j, D.
  split; [apply R2|]. split; [apply R2|]. split; [exact Hj|]. cbv zeta in *. split; [unfold blen; lia|]. split; [intros; apply D2; unfold blen in *; lia|exact D3].
Qed.
Lemma ub_only_after E argv w : sane E argv w -> good_index E argv w -> fst (main E argv w) = UB ->
  exists iino tino p n, e_open E (cmd_index argv) = Some iino /\ e_open_rw E (cmd_target argv) = Some tino /\ valid_index (w_files w iino) p n /\
    held E false (w_files w iino) (w_files w tino) (N.to_nat n) (w_files (snd (main E argv w)) tino).
Proof.
  intros HS HG Hu. pose proof (wp_main E false argv w HS HG ltac:(discriminate)) as H. unfold wp in H.
  destruct (main E argv w) as [[c| | |] w']; try discriminate. destruct H as (d & H & Hd). rewrite (Hd eq_refl) in H. destruct H as [(X & _)|(wk & su & w1 & [R1 R2 R3 R4])]; [discriminate|].
  exists (su_index su), (t_ino (su_target su)), (su_params su), (su_n su). split; [apply R2|]. split; [apply R2|]. split; [apply R2|]. apply R4. reflexivity.
Qed.

(** ** C11 *)
Lemma target_serves E argv w k id out m out' w' : sane E argv w -> good_index E argv w -> hash_reliable E w ->
  sync_then_ask E argv k id out w = (Ok (Some (Some m, out')), w') -> 0 < m -> m <= blen out /\ e_H E (firstn (N.to_nat m) out') = id.
Proof.
  intros HS HG Hb Hm Hpos.
  assert (G : wp (sync_then_ask E argv k id out) (fun r _ => forall m out', r = Some (Some m, out') -> 0 < m -> m <= blen out /\ e_H E (firstn (N.to_nat m) out') = id) (fun _ _ => True) w).
  2:{ pose proof (wp_ok _ _ _ _ _ _ _ G Hm) as H. apply (H _ _ eq_refl Hpos). }
  clear Hm. unfold sync_then_ask. fold (init E argv). apply wp_bind. eapply wp_mono; [apply (wp_init E true argv w HS); auto| |auto].
  intros [su| |c] w1 (wk & Hk & Q & HR); try (apply wp_ret; discriminate).
  pose proof (ready_files _ _ _ _ _ _ _ Hk HR) as Hfil. pose proof (ready_initial _ _ _ _ _ _ _ HS Hk HR) as HM.
  cbv zeta in HM. destruct HS as [HE Hsv Hes Hf Hargs Hhelp Hix Hal Hd]. destruct HR as [R1 R2 R3 R4 R5 R6 R7 R8].
  set (f := w_files w (su_index su)) in *. set (n := N.to_nat (su_n su)) in *. set (ti := t_ino (su_target su)) in *.
  replace (su_n su) with (N.of_nat n) by (unfold n; lia). apply wp_bind.
  eapply wp_mono; [apply (sync_prefix E true f n ti (su_index su) (su_params su) w1 HE Hsv (HG _ _ _ R2 R4))|..].
  - apply Hf.
  - eapply valid_length; eauto.
  - apply Hf.
  - intros Heq. apply (Hix ti R3). rewrite R2. congruence.
  - apply Hfil.
  - lia.
  - exact HM.
  - reflexivity.
  - intros [ok st] w2 H. cbn [fst snd] in H. destruct ok; cbn [negb]; [|apply wp_ret; discriminate].
    destruct H as (last & (_ & HC & _) & _). apply wp_bind.
    apply (wp_target_get E true (ent_start f (Nat.min k n)) (m_target st) id out).
    + apply HE.
    + apply HE.
    + rewrite (mi_ino _ _ _ _ _ _ _ _ _ HC). apply HC.
    + rewrite (mi_ino _ _ _ _ _ _ _ _ _ HC). apply HC.
    + intros r o t' w3 _ _ Ha _ _ _ _. apply wp_ret. intros m' o' Heq Hp. injection Heq as -> ->. destruct Ha as (_ & Ha). cbn in Ha. apply Ha, Hp.
    + auto.
  - auto.
Qed.

(** ** C47 *)
Lemma survives_old ino tr g : ~ In (TSync ino) tr -> survives ino tr g g.
Proof.
  induction tr as [|ev tr IH]; intros H; [constructor|]. assert (H' : ~ In (TSync ino) tr) by (intros X; apply H; now right).
  destruct ev; try (apply sv_other; [discriminate|now apply IH]).
  destruct (Nat.eq_dec ino0 ino) as [->|Hne]; [apply sv_lose; auto|]. apply sv_other; [intros o d X; injection X; congruence|now apply IH].
Qed.
Lemma never_flushed E argv w : exists tr, run_trace w (snd (main E argv w)) tr /\ (forall i, ~ In (TSync i) tr) /\
  forall ino, survives ino (rev tr) (w_files w ino) (w_files w ino).
Proof.
  destruct (main_only_target E argv w) as (_ & tr & T & F). exists tr. split; [exact T|]. rewrite Forall_forall in F.
  assert (N0 : forall i, ~ In (TSync i) tr) by (intros i Hi; destruct (F _ Hi)). split; [exact N0|].
  intros ino. apply survives_old. intros X. apply in_rev in X. eapply N0; eauto.
Qed.
