(** Proofs about patchdd.c (C45, C46). *)
From Verif Require Import Base Lib SpecBasic Utils PfUtils PfBasic PfIO PfRead PfTarget PfSync SpecRun Ui Patchdd SpecPatch SpecClosing.
Ltac Zify.zify_post_hook ::= Z.div_mod_to_equations.
Local Open Scope N_scope.

Lemma memcmp_offset_spec a : forall b, length a = length b ->
  let k := memcmp_offset a b in
  (k <= length a)%nat /\ (forall i, (i < k)%nat -> nth_error a i = nth_error b i) /\ ((k < length a)%nat -> nth_error a k <> nth_error b k).
Proof.
  induction a as [|x a IH]; intros [|y b] L; try discriminate L; cbn [memcmp_offset length].
  - split; [lia|]. split; [intros i Hi; lia|lia].
  - destruct (N.eqb_spec x y) as [->|Hne].
    + destruct (IH b ltac:(cbn in L; lia)) as (A & B & C). split; [lia|]. split.
      * intros [|i] Hi; [reflexivity|]. cbn. apply B. lia.
      * intros Hk. cbn. apply C. lia.
    + split; [lia|]. split; [intros i Hi; lia|]. intros _. cbn. congruence.
Qed.

(** ** The trace tells what is in the file *)
Fixpoint replay (ino : nat) (tr : list tev) (g : bytes) : bytes :=
  match tr with
  | [] => g
  | TWrite i o d :: tr => replay ino tr (if Nat.eqb i ino then file_write g (N.to_nat o) d else g)
  | _ :: tr => replay ino tr g
  end.
Lemma replay_app ino t1 t2 g : replay ino (t1 ++ t2) g = replay ino t2 (replay ino t1 g).
Proof. revert g. induction t1 as [|[] t1 IH]; intros g; cbn [app replay]; auto. Qed.
Lemma survives_flushed ino tr : forall g g', survives ino (tr ++ [TSync ino]) g g' -> g' = replay ino tr g.
Proof.
  induction tr as [|ev tr IH]; intros g g' H; cbn [app] in H.
  - inversion H as [| | |? ? ? ? _ H1]; subst. inversion H1; subst; reflexivity.
  - inversion H; subst.
    + cbn [replay]. rewrite Nat.eqb_refl. now apply IH.
    + exfalso. apply H2, in_or_app. right. now left.
    + destruct ev; cbn [replay]; try (apply IH; assumption). destruct (Nat.eqb_spec ino0 ino) as [->|Hn]; [exfalso; eapply H2; reflexivity|]. now apply IH.
Qed.

Definition wev (ino : nat) (p : N * bytes) : tev := TWrite ino (fst p) (snd p).
Lemma pwrite_loop_replay ino k ev : forall f off data wr r f' wr' ev',
  pwrite_loop k f off data ev wr = (r, f', wr', ev') -> exists new, wr' = new ++ wr /\ f' = replay ino (rev (map (wev ino) new)) f.
Proof.
  induction ev as [|e ev IH]; intros f off data wr r f' wr' ev' H; destruct data as [|x data]; cbn [pwrite_loop] in H.
  1-3: injection H as <- <- <- <-; exists []; auto.
  destruct e as [m| | |].
  - destruct (write_room _ _ _ _) as [n|].
    + apply IH in H as (new & -> & ->). exists (new ++ [(off, firstn (N.to_nat n) (x :: data))]). split; [now rewrite <- app_assoc|].
      rewrite map_app, rev_app_distr, replay_app. cbn [rev map app replay wev fst snd]. now rewrite Nat.eqb_refl.
    + injection H as <- <- <- <-. exists []. auto.
  - now apply IH in H.
  - injection H as <- <- <- <-. exists []. auto.
  - injection H as <- <- <- <-. exists []. auto.
Qed.

(** A write, complete or not. *)
Definition put (ino : nat) (data : bytes) (off : N) (n : nat) (w w' : world) : Prop :=
  (n <= length data)%nat /\ w_files w' ino = fw (w_files w ino) (N.to_nat off) (firstn n data) /\ (forall j, j <> ino -> w_files w' j = w_files w j) /\
  exists new, w_trace w' = map (wev ino) new ++ w_trace w /\ Forall (wr_ok off data) new /\ w_files w' ino = replay ino (rev (map (wev ino) new)) (w_files w ino).
Lemma wp_put E ino data off (Q : bool -> world -> Prop) (R : bad -> world -> Prop) w :
  let fine := error_free (w_io w) /\ can_hold (e_kind E ino) (w_files w ino) off (blen data) in
  (forall r n w', put ino data off n w w' -> (r = true -> n = length data) -> (fine -> r = true) ->
     (transfers (w_io w) <= transfers (w_io w') + length data)%nat -> suffix (w_io w') (w_io w) -> Q r w') ->
  (forall bd n w', put ino data off n w w' -> bd <> BUB -> (fine -> bd = BHalt /\ (transfers (w_io w) < length data)%nat) -> R bd w') ->
  wp (pwriteall E ino data off) Q R w.
Proof.
  intros fine HQ HR. unfold wp, pwriteall.
  destruct (pwrite_loop (e_kind E ino) (w_files w ino) off data (w_io w) []) as [[[r f'] wr] ev'] eqn:EP.
  pose proof (pwrite_loop_uses _ _ _ _ _ _ _ _ _ _ EP) as HU.
  destruct (pwrite_loop_replay ino _ _ _ _ _ _ _ _ _ _ EP) as (new0 & N0 & Rp). rewrite app_nil_r in N0. subst new0.
  assert (Hn0 : data = [] -> r = IoDone). { intros ->. destruct (w_io w); cbn in EP; now injection EP as <- _ _ _. }
  assert (HF : fine -> r = IoDone \/ r = IoHalt /\ (transfers (w_io w) < length data)%nat).
  { intros (He & Hc). destruct data as [|x data']; [left; now apply Hn0|]. eapply pwrite_loop_error_free; eauto. discriminate. }
  apply pwrite_loop_spec in EP as (n & L & Ef & Hd & Hs & (new & -> & Hnew) & Hk & Ho). rewrite app_nil_r in *.
  set (w1 := mkWorld _ _ _ _ _ _ _).
  assert (P : put ino data off n w w1).
  { unfold w1. split; [exact L|]. cbn [w_files w_trace]. unfold upd_file. rewrite Nat.eqb_refl. split; [exact Ef|]. split.
    - intros j Hj. destruct (Nat.eqb_spec j ino); [contradiction|reflexivity].
    - exists new. split; [reflexivity|]. split; [exact Hnew|exact Rp]. }
  destruct r.
  - apply (HQ true n); auto.
  - apply (HQ false n); auto; [discriminate|]. intros H. destruct (HF H) as [X|(X & _)]; discriminate.
  - apply (HR BAbort n); auto; [discriminate|]. intros H. destruct (HF H) as [X|(X & _)]; discriminate.
  - apply (HR BHalt n); auto; [discriminate|]. intros H. destruct (HF H) as [X|(_ & X)]; [discriminate|auto].
Qed.

Section Loop.
Variables (E : env) (w0 : world) (src dst : nat).
Let s := w_files w0 src.
Let d := w_files w0 dst.
Hypothesis Hfit : blen s <= blen d.

Definition at_off (off : nat) (g : bytes) : Prop :=
  length g = length d /\ forall i, nth_error g i = if (i <? off)%nat then nth_error s i else nth_error d i.
Definition fine : Prop := error_free (w_io w0) /\ (e_kind E dst = KReg \/ e_kind E dst = KBlk) /\ blen d < OFF_LIMIT.
Definition history (w : world) : Prop := exists tr, w_trace w = tr ++ w_trace w0 /\ block_writes s d dst tr /\ w_files w dst = replay dst (rev tr) d.
Record LInv (off : N) (w : world) : Prop := mkLInv {
  li_other : forall j, j <> dst -> w_files w j = w_files w0 j;
  li_src : w_files w src = s;
  li_dst : at_off (N.to_nat off) (w_files w dst);
  li_hist : history w;
  li_io : suffix (w_io w) (w_io w0);
  li_cost : (transfers (w_io w0) <= transfers (w_io w) + 3 * N.to_nat off)%nat }.
Definition Stop (w : world) : Prop := (forall j, j <> dst -> w_files w j = w_files w0 j) /\ mixed s d (w_files w dst) /\ history w.

Lemma at_off_mixed off g : (off <= length s)%nat -> at_off off g -> mixed s d g.
Proof.
  intros Ho (A & B). split; [exact A|]. intros i. unfold byte_of. rewrite B. destruct (Nat.ltb_spec i off); [right; split; [lia|reflexivity]|now left].
Qed.
Lemma LInv_stop off w : off <= blen s -> LInv off w -> Stop w.
Proof. intros Ho []. split; [assumption|]. split; [|assumption]. eapply at_off_mixed; [|eassumption]. unfold blen in Ho. lia. Qed.
(** The part of a block that is written. *)
Lemma wr_block off n fd data o x : let b := 1048576 * (off / 1048576) in
  off = b -> n <= 1048576 -> off + n <= blen s -> data = skipn fd (slice_N off n s) -> (fd < N.to_nat n)%nat ->
  nth_error (slice_N off n s) fd <> nth_error (slice_N off n d) fd -> (forall i, (i < fd)%nat -> nth_error (slice_N off n s) i = nth_error (slice_N off n d) i) ->
  wr_ok (off + N.of_nat fd) data (o, x) -> block_write s d o x.
Proof.
  intros b Hb Hn Hs -> Hfd Hdiff Hsame (A & B & C & D). cbn [fst snd] in *.
  assert (Ln : forall (l : bytes) i, (i < N.to_nat n)%nat -> nth_error (slice_N off n l) i = nth_error l (N.to_nat off + i)).
  { intros l i Hi. unfold slice_N. rewrite nth_error_firstn. destruct (Nat.ltb_spec i (N.to_nat n)); [|lia]. now rewrite nth_error_skipn. }
  assert (Ls : length (slice_N off n s) = N.to_nat n) by (unfold slice_N; rewrite firstn_length, skipn_length; unfold blen in Hs; lia).
  assert (Lx : blen (skipn fd (slice_N off n s)) = n - N.of_nat fd) by (unfold blen; rewrite skipn_length, Ls; lia). rewrite Lx in B.
  exists (off / 1048576), (off + N.of_nat fd). cbv zeta. fold b. rewrite <- Hb. split; [lia|]. split; [lia|]. split; [|split].
  - intros i Hi. unfold byte_of. rewrite D, nth_error_firstn. destruct (Nat.ltb_spec i (length x)); [|lia]. rewrite !nth_error_skipn. rewrite Ln by (unfold blen in *; lia). f_equal. lia.
  - rewrite !Ln in Hdiff by exact Hfd. replace (N.to_nat (off + N.of_nat fd)) with (N.to_nat off + fd)%nat by lia. exact Hdiff.
  - intros q (Hq1 & Hq2). specialize (Hsame (N.to_nat (q - off)) ltac:(lia)). rewrite !Ln in Hsame by lia. replace (N.to_nat off + N.to_nat (q - off))%nat with (N.to_nat q) in Hsame by lia. exact Hsame.
Qed.
Lemma at_off_src off w : src = dst -> at_off off (w_files w dst) -> w_files w src = s.
Proof.
  intros Heq (_ & B). apply nth_error_ext. intros i. rewrite Heq, B. unfold s, d. rewrite Heq. now destruct (i <? off)%nat.
Qed.

Lemma put_step off n fd m w w' : let b := 1048576 * (off / 1048576) in
  off = b -> n <= 1048576 -> off + n <= blen s -> (fd <= N.to_nat n)%nat ->
  ((fd < N.to_nat n)%nat -> nth_error (slice_N off n s) fd <> nth_error (slice_N off n d) fd) ->
  (forall i, (i < fd)%nat -> nth_error (slice_N off n s) i = nth_error (slice_N off n d) i) ->
  (forall j, j <> dst -> w_files w j = w_files w0 j) -> at_off (N.to_nat off) (w_files w dst) -> history w ->
  put dst (skipn fd (slice_N off n s)) (off + N.of_nat fd) m w w' ->
  Stop w' /\ (m = length (skipn fd (slice_N off n s)) -> at_off (N.to_nat (off + n)) (w_files w' dst)).
Proof.
  intros b Hb Hn Hs Hfd Hdiff Hsame Ho (Ha1 & Ha2) (tr & T1 & T2 & T3) (P1 & P2 & P3 & new & P4 & P5 & P6).
  set (data := skipn fd (slice_N off n s)) in *.
  assert (Ln : forall (l : bytes) i, (i < N.to_nat n)%nat -> nth_error (slice_N off n l) i = nth_error l (N.to_nat off + i)).
  { intros l i Hi. unfold slice_N. rewrite nth_error_firstn. destruct (Nat.ltb_spec i (N.to_nat n)); [|lia]. now rewrite nth_error_skipn. }
  assert (Ls : length (slice_N off n s) = N.to_nat n) by (unfold slice_N; rewrite firstn_length, skipn_length; unfold blen in Hs; lia).
  assert (Ld : length data = (N.to_nat n - fd)%nat) by (unfold data; now rewrite skipn_length, Ls).
  assert (Hl : (N.to_nat off + N.to_nat n <= length d)%nat) by (unfold blen in *; lia).
  assert (Lm : length (firstn m data) = m) by (rewrite firstn_length; lia).
  assert (Nth : forall i, nth_error (w_files w' dst) i = if ((N.to_nat off + fd <=? i) && (i <? N.to_nat off + fd + m))%nat then nth_error s i else if (i <? N.to_nat off)%nat then nth_error s i else nth_error d i).
  { intros i. rewrite P2, nth_error_fw by (rewrite Ha1; unfold blen in *; lia). rewrite Lm.
    replace (N.to_nat (off + N.of_nat fd)) with (N.to_nat off + fd)%nat by lia.
    destruct ((N.to_nat off + fd <=? i) && (i <? N.to_nat off + fd + m))%nat eqn:Ei; [|apply Ha2].
    apply andb_true_iff in Ei as (E1 & E2). apply Nat.leb_le in E1. apply Nat.ltb_lt in E2.
    rewrite nth_error_firstn. destruct (Nat.ltb_spec (i - (N.to_nat off + fd)) m); [|lia]. unfold data. rewrite nth_error_skipn, Ln by lia. f_equal. lia. }
  assert (Lw : length (w_files w' dst) = length d).
  { rewrite P2. unfold fw. destruct (firstn m data) as [|x0 l0] eqn:Ef; [exact Ha1|]. rewrite length_file_write, Lm, Ha1. lia. }
  split.
  - split; [intros j Hj; rewrite P3 by exact Hj; auto|]. split.
    + split; [exact Lw|]. intros i. unfold byte_of. rewrite Nth. destruct (_ && _)%bool eqn:Ei.
      * right. apply andb_true_iff in Ei as (E1 & E2). apply Nat.leb_le in E1. apply Nat.ltb_lt in E2. split; [|reflexivity]. unfold blen in *. lia.
      * destruct (Nat.ltb_spec i (N.to_nat off)); [right; split; [unfold blen in *; lia|reflexivity]|now left].
    + exists (map (wev dst) new ++ tr). split; [now rewrite P4, T1, app_assoc|]. split.
      * apply Forall_app. split; [|exact T2]. apply Forall_forall. intros ev Hin. apply in_map_iff in Hin as ((o & x) & <- & Hin).
        rewrite Forall_forall in P5. specialize (P5 _ Hin). cbn. split; [reflexivity|].
        assert (Hlt : (fd < N.to_nat n)%nat). { destruct P5 as (A & B & C & _). cbn [fst snd] in *. unfold blen in B. rewrite Ld in B. destruct x; [congruence|]. cbn [length] in B. lia. }
        eapply (wr_block off n fd data); eauto.
      * rewrite rev_app_distr, replay_app, <- T3. exact P6.
  - intros Hm. split; [exact Lw|]. intros i. rewrite Nth. replace (N.to_nat (off + n)) with (N.to_nat off + N.to_nat n)%nat by lia. rewrite Hm, Ld.
    replace (N.to_nat off + fd + (N.to_nat n - fd))%nat with (N.to_nat off + N.to_nat n)%nat by lia.
    destruct (Nat.ltb_spec i (N.to_nat off)).
    { destruct (Nat.ltb_spec i (N.to_nat off + N.to_nat n)); [|lia]. now destruct (_ && _)%bool. }
    destruct (Nat.ltb_spec i (N.to_nat off + N.to_nat n)) as [E1|E1]; [|now rewrite andb_false_r]. rewrite andb_true_r.
    destruct (Nat.leb_spec (N.to_nat off + fd) i) as [E2|E2]; [reflexivity|].
    specialize (Hsame (i - N.to_nat off)%nat ltac:(lia)). rewrite !Ln in Hsame by lia. replace (N.to_nat off + (i - N.to_nat off))%nat with i in Hsame by lia. congruence.
Qed.

Lemma wp_patch_loop : forall fuel off skp w, (N.to_nat (blen s - off) < fuel)%nat -> off <= blen s -> (off = 1048576 * (off / 1048576) \/ off = blen s) -> LInv off w ->
  wp (patch_loop E fuel src dst (blen s) off skp)
     (fun r w' => match r with Some sk => LInv (blen s) w' /\ (exists total, sk = skp + total /\ kept s d off total) | None => Stop w' /\ ~ fine end)
     (fun bd w' => bd <> BUB /\ Stop w' /\ (fine -> bd = BHalt /\ (transfers (w_io w0) < 3 * length s)%nat)) w.
Proof.
  induction fuel as [|fuel IH]; intros off skp w Hf Ho Hal HL; [lia|]. cbn [patch_loop].
  destruct (N.leb_spec (blen s) off) as [Hle|Hlt]. { apply wp_ret. split; [now replace (blen s) with off by lia|]. exists 0. split; [lia|now constructor]. }
  destruct Hal as [Hal|Hal]; [|lia]. change TRANSFER_SIZE with 1048576. set (n := N.min (blen s - off) 1048576).
  pose proof (LInv_stop off w Ho HL) as HS. destruct HL as [L1 L2 L3 L4 L5 L6].
  assert (Hn : 0 < n /\ n <= 1048576 /\ off + n <= blen s) by (unfold n; lia).
  assert (Hlen : blen (w_files w dst) = blen d) by (unfold blen; f_equal; apply L3).
  assert (Halt : forall w', w_files w' = w_files w -> w_trace w' = w_trace w -> Stop w').
  { intros w' A B. destruct HS as (S1 & S2 & tr & S3 & S4 & S5). unfold Stop, history. rewrite A, B. split; [exact S1|]. split; [exact S2|]. exists tr. auto. }
  assert (Hef : fine -> error_free (w_io w)) by (intros (A & _); eapply error_free_suffix; eauto).
  assert (Hoff : fine -> off < OFF_LIMIT) by (intros (_ & _ & A); lia).
  apply wp_bind, wp_pread; rewrite ?L2.
  2:{ intros ev' k Hs Hk _ Hr. cbn [negb]. apply wp_ret. split; [now apply Halt|]. intros Hfine. destruct Hr as [Hr|[Hr|Hr]]; [now apply Hr, Hef|lia|]. specialize (Hoff Hfine). lia. }
  2:{ intros Hh. split; [discriminate|]. split; [now apply Halt|]. intros _. split; [reflexivity|]. unfold blen in *. lia. }
  intros ev1 Hs1 _ _ Ha Hc1. cbn [negb]. apply wp_bind, wp_pread; cbn [w_files set_io w_io].
  2:{ intros ev' k Hs Hk _ Hr. cbn [negb]. apply wp_ret. split; [now apply Halt|]. intros Hfine. destruct Hr as [Hr|[Hr|Hr]]; [|lia|specialize (Hoff Hfine); lia].
      apply Hr. eapply error_free_suffix; [exact Hs1|]. now apply Hef. }
  2:{ intros Hh. split; [discriminate|]. split; [now apply Halt|]. intros _. split; [reflexivity|]. unfold blen in *. lia. }
  intros ev2 Hs2 _ _ Hb Hc2. cbn [negb].
  assert (Eb : slice_N off n (w_files w dst) = slice_N off n d).
  { unfold slice_N. f_equal. apply nth_error_ext. intros i. rewrite !nth_error_skipn. destruct L3 as (_ & L3). rewrite L3.
    destruct (Nat.ltb_spec (N.to_nat off + i) (N.to_nat off)); [lia|reflexivity]. }
  rewrite Eb in *. set (fd := memcmp_offset (slice_N off n s) (slice_N off n d)).
  destruct (memcmp_offset_spec (slice_N off n s) (slice_N off n d)) as (M1 & M2 & M3); [unfold blen in *; lia|]. fold fd in M1, M2, M3.
  assert (Ls : length (slice_N off n s) = N.to_nat n) by (unfold blen in *; lia). rewrite Ls in M1, M3.
  assert (Hd : blen (skipn fd (slice_N off n s)) = n - N.of_nat fd) by (unfold blen; rewrite skipn_length, Ls; lia).
  apply wp_bind. eapply wp_put; cbn [w_io w_files set_io].
  - intros r m w' Hput Hm Hr Hc3 Hs3.
    assert (Hp : put dst (skipn fd (slice_N off n s)) (off + N.of_nat fd) m w w') by (destruct Hput as (A & B & C & D); split; [exact A|]; split; [exact B|]; split; [exact C|exact D]).
    destruct (put_step off n fd m w w') as (St & Full); auto; try lia.
    destruct r; cbn [negb].
    2:{ apply wp_ret. split; [exact St|]. intros Hfine. assert (X : false = true); [|discriminate]. apply Hr. split.
        - eapply error_free_suffix; [exact Hs2|]. eapply error_free_suffix; [exact Hs1|]. now apply Hef.
        - destruct Hfine as (_ & Hk & Hlim). split; [lia|]. destruct Hk as [-> | ->]; [exact Logic.I|]. lia. }
    specialize (Full (Hm eq_refl)).
    assert (Kp : forall total, kept s d (off + n) total -> kept s d off (N.of_nat fd + total)).
    { intros total. apply kept_block; [lia|reflexivity|]. change (part_of off n s) with (slice_N off n s). change (part_of off n d) with (slice_N off n d).
      split; [lia|]. split; [|now rewrite Ls]. apply nth_error_ext. intros i. rewrite !nth_error_firstn. destruct (Nat.ltb_spec i fd); [now apply M2|reflexivity]. }
    assert (Kw : forall w2, LInv (off + n) w2 -> wp (patch_loop E fuel src dst (blen s) (off + n) (skp + N.of_nat fd))
      (fun r w' => match r with Some sk => LInv (blen s) w' /\ (exists total, sk = skp + total /\ kept s d off total) | None => Stop w' /\ ~ fine end)
      (fun bd w' => bd <> BUB /\ Stop w' /\ (fine -> bd = BHalt /\ (transfers (w_io w0) < 3 * length s)%nat)) w2).
    { intros w2 H2. assert (Al : off + n = 1048576 * ((off + n) / 1048576) \/ off + n = blen s).
      { unfold n. destruct (N.le_gt_cases (blen s - off) 1048576); [right; lia|left]. rewrite N.min_r by lia. lia. }
      eapply wp_mono; [apply (IH (off + n) (skp + N.of_nat fd) w2); [lia|lia|exact Al|exact H2]| |auto].
      intros [sk|] w3 H3; [|exact H3]. destruct H3 as (H3 & total & -> & H4). split; [exact H3|]. exists (N.of_nat fd + total). split; [lia|now apply Kp]. }
    assert (Src : w_files w' src = s). { destruct (Nat.eq_dec src dst) as [Heq|Hne]; [eapply at_off_src; eauto|]. destruct St as (S1 & _). now apply S1. }
    assert (NX : LInv (off + n) w').
    { constructor; auto; try apply St.
      - eapply suffix_trans; [exact Hs3|]. eapply suffix_trans; [exact Hs2|]. eapply suffix_trans; eauto.
      - unfold blen in Hd. lia. }
    assert (Al : off + n = 1048576 * ((off + n) / 1048576) \/ off + n = blen s).
    { unfold n. destruct (N.le_gt_cases (blen s - off) 1048576); [right; lia|left]. rewrite N.min_r by lia. lia. }
    destruct (e_interactive E); [|apply wp_bind, wp_ret].
    + apply wp_bind, wp_trace. apply Kw. destruct NX as [N1 N2 N3 (tr & T1 & T2 & T3) N5 N6]. constructor; auto.
      exists (TProgress (patchdd_percent (off + n) (blen s)) :: tr). split; [cbn; now rewrite T1|]. split; [constructor; [exact Logic.I|exact T2]|].
      cbn [rev]. rewrite replay_app. cbn [replay]. exact T3.
    + apply Kw. exact NX.
  - intros bd m w' Hput Hbd Hr.
    assert (Hp : put dst (skipn fd (slice_N off n s)) (off + N.of_nat fd) m w w') by (destruct Hput as (A & B & C & D); split; [exact A|]; split; [exact B|]; split; [exact C|exact D]).
    destruct (put_step off n fd m w w') as (St & _); auto; try lia.
    split; [exact Hbd|]. split; [exact St|]. intros Hfine. destruct Hr as (R1 & R2).
    { split.
        - eapply error_free_suffix; [exact Hs2|]. eapply error_free_suffix; [exact Hs1|]. now apply Hef.
        - destruct Hfine as (_ & Hk & Hlim). split; [lia|]. destruct Hk as [-> | ->]; [exact Logic.I|]. lia. }
    split; [exact R1|]. unfold blen in *. lia.
Qed.
End Loop.

(** ** The program *)
Lemma at_off_patched w0 src dst g : blen (w_files w0 src) <= blen (w_files w0 dst) ->
  at_off w0 src dst (length (w_files w0 src)) g -> g = patched (w_files w0 src) (w_files w0 dst).
Proof.
  intros L (A & B). unfold patched. apply nth_error_ext. intros i. rewrite B, nth_error_app, nth_error_skipn.
  destruct (Nat.ltb_spec i (length (w_files w0 src))); [reflexivity|]. f_equal. lia.
Qed.

Definition patch_post (E : env) (argv : list bytes) (w : world) (c : N) (w' : world) : Prop :=
  (c = 0 \/ c = 1) /\ (forall j, dst_of E argv <> Some j -> w_files w' j = w_files w j) /\
  match src_of E argv, dst_of E argv with
  | Some src, Some dst =>
      let s := w_files w src in let d := w_files w dst in
      mixed s d (w_files w' dst) /\
      (exists tr, run_trace w w' tr /\ block_writes s d dst tr /\
        (c = 0 -> w_files w' dst = patched s d /\ blen s <= blen d /\ forall g, survives dst (rev tr) d g -> g = patched s d)) /\
      (blen d < blen s -> c = 1 /\ (forall j, w_files w' j = w_files w j) /\ w_trace w' = w_trace w) /\
      (~ asks_usage argv -> (exists k, e_kind E src = k /\ k <> KOther) -> blen s <= blen d < OFF_LIMIT -> (e_kind E dst = KReg \/ e_kind E dst = KBlk) ->
        Forall (fun e => exists k, e = IoN k) (w_io w) -> (3 * length s < length (w_io w))%nat -> c = 0)
  | _, _ => c = 1 /\ w' = w
  end.
Definition patch_bad (E : env) (argv : list bytes) (w : world) (bd : bad) (w' : world) : Prop :=
  bd <> BUB /\ (forall j, dst_of E argv <> Some j -> w_files w' j = w_files w j) /\
  exists src dst, src_of E argv = Some src /\ dst_of E argv = Some dst /\
    let s := w_files w src in let d := w_files w dst in
    blen s <= blen d /\ mixed s d (w_files w' dst) /\
    (exists tr, run_trace w w' tr /\ block_writes s d dst tr) /\
    ~ (blen d < OFF_LIMIT /\ (e_kind E dst = KReg \/ e_kind E dst = KBlk) /\
        Forall (fun e => exists k, e = IoN k) (w_io w) /\ (3 * length s < length (w_io w))%nat).

Lemma all_good ev : Forall (fun e => exists k, e = IoN k) ev -> error_free ev /\ transfers ev = length ev.
Proof.
  induction 1 as [|e ev (k & ->) _ (A & B)]; [split; [constructor|reflexivity]|]. split; [constructor; [exact I|exact A]|]. cbn. now rewrite B.
Qed.
Lemma mixed_refl s d : mixed s d d. Proof. split; auto. Qed.

Lemma wp_patchdd E argv w : wp (patchdd_main E argv) (patch_post E argv w) (patch_bad E argv w) w.
Proof.
  assert (Refuse : asks_usage argv \/ src_of E argv = None \/ dst_of E argv = None -> patch_post E argv w 1 w).
  { intros H. split; [now right|]. split; [auto|]. destruct (src_of E argv) as [src|] eqn:E1; [|auto]. destruct (dst_of E argv) as [dst|] eqn:E2; [|auto].
    destruct H as [H|[H|H]]; try discriminate. split; [apply mixed_refl|]. split; [exists []; split; [reflexivity|]; split; [constructor|discriminate]|].
    split; [auto|]. contradiction. }
  unfold patchdd_main. destruct argv as [|a0 [|sp [|dp rest]]]; try (apply wp_ret, Refuse; left; left; cbn; lia).
  set (argv := a0 :: sp :: dp :: rest) in *.
  destruct (beq sp (bs "-h") || beq sp (bs "--help"))%bool eqn:Eh.
  { apply wp_ret, Refuse. left. right. apply orb_true_iff in Eh. now rewrite !beq_eq in Eh. }
  destruct (e_open E sp) as [src|] eqn:E1; [|apply wp_ret, Refuse; right; left; exact E1].
  destruct (e_open_rw E dp) as [dst|] eqn:E2; [|apply wp_ret, Refuse; right; right; exact E2].
  assert (S1 : src_of E argv = Some src) by exact E1. assert (D1 : dst_of E argv = Some dst) by exact E2.
  set (s := w_files w src). set (d := w_files w dst).
  assert (NoOther : e_kind E src = KOther \/ e_kind E dst = KOther \/ blen d < blen s -> patch_post E argv w 1 w).
  { intros H. split; [now right|]. split; [auto|]. rewrite S1, D1. cbv zeta. fold s d. split; [apply mixed_refl|]. split; [exists []; split; [reflexivity|]; split; [constructor|discriminate]|].
    split; [auto|]. intros _ (k & <- & Hk) ? [G|G]; destruct H as [H|[H|H]]; try contradiction; try congruence; lia. }
  apply wp_bind. unfold fd_size at 1. unfold wp at 1.
  destruct (e_kind E src) eqn:Ks; [| |apply wp_ret, NoOther; auto];
  (apply wp_bind; unfold fd_size at 1; unfold wp at 1; destruct (e_kind E dst) eqn:Kd; [| |apply wp_ret, NoOther; auto];
  fold s d; (destruct (N.ltb_spec (blen d) (blen s)) as [Hlt|Hge]; [apply wp_ret, NoOther; auto|])).
  all: apply wp_bind; eapply wp_mono;
    [apply (wp_patch_loop E w src dst Hge (S (N.to_nat (blen s))) 0 0 w); [fold s; lia|lia|now left|
       constructor; [auto|reflexivity|split; auto|exists []; split; [reflexivity|]; split; [constructor|reflexivity]|apply suffix_refl|lia]]| |].
  all: try (intros bd w' (Bd & (St1 & St2 & tr & St3 & St4 & St5) & Hfin); split; [exact Bd|]; split; [intros j Hj; apply St1; congruence|];
    exists src, dst; split; [exact S1|]; split; [exact D1|]; cbv zeta; fold s d; split; [exact Hge|]; split; [exact St2|]; split; [exists tr; auto|];
    intros (F1 & F2 & F3 & F4); destruct (all_good _ F3) as (G1 & G2); destruct (Hfin (conj G1 (conj F2 F1))) as (_ & H3); fold s in H3; lia).
  all: assert (Dd : forall j, dst_of E argv <> Some j -> j <> dst) by (intros j Hj; congruence).
  all: intros [sk|] w' HL;
    [destruct HL as (HL & _)|apply wp_ret; destruct HL as ((St1 & St2 & tr & St3 & St4 & St5) & Hnf); split; [now right|]; split; [auto|]; rewrite S1, D1; cbv zeta; fold s d;
      split; [exact St2|]; split; [exists tr; split; [exact St3|]; split; [exact St4|discriminate]|]; split; [lia|];
      intros _ _ (_ & F1) F2 F3 _; destruct (all_good _ F3) as (G1 & _); exfalso; apply Hnf; split; auto].
  all: assert (Hb : blen s <= blen s) by lia; pose proof (LInv_stop w src dst Hge (blen s) w' Hb HL) as (St1 & St2 & _); destruct HL as [L1 L2 L3 (tr & L4 & L5 & L6) L7 L8].
  all: fold s in L3, L8; assert (Hbs : N.to_nat (blen s) = length s) by (unfold blen; lia); rewrite Hbs in L3, L8.
  all: pose proof (at_off_patched w src dst _ Hge L3) as HP; fold s d in HP.
  all: apply wp_bind; unfold fsync, wp at 1; destruct (w_io w') as [|e ev] eqn:Ei.
  all: try (split; [discriminate|]; split; [auto|]; exists src, dst; split; [exact S1|]; split; [exact D1|]; cbv zeta; fold s d; split; [exact Hge|]; split; [exact St2|]; split; [exists tr; auto|];
      intros (F1 & F2 & F3 & F4); destruct (all_good _ F3) as (G1 & G2); cbn [transfers] in L8; lia).
  all: assert (Bad : e = IoErr \/ e = IoIntr -> patch_post E argv w 1 (set_io ev w'));
    [intros He; split; [now right|]; split; [intros j Hj; apply L1; auto|]; rewrite S1, D1; cbv zeta; fold s d; split; [exact St2|]; split; [exists tr; split; [exact L4|]; split; [exact L5|discriminate]|]; split; [lia|];
      intros _ _ _ _ F3 _; exfalso; destruct L7 as (p & L7); rewrite L7 in F3; apply Forall_app in F3 as (_ & F3); inversion F3 as [|? ? (k & ->) _]; destruct He; discriminate|].
  all: assert (Good : patch_post E argv w 0 (add_trace (TSync dst) (set_io ev w')));
    [split; [now left|]; split; [intros j Hj; apply L1; auto|]; rewrite S1, D1; cbv zeta; fold s d; split; [exact St2|]; split; [exists (TSync dst :: tr); split; [unfold run_trace; cbn; now rewrite L4|]; split; [constructor; [exact Logic.I|exact L5]|];
       intros _; split; [exact HP|]; split; [exact Hge|]; intros g Hg; cbn [rev] in Hg; apply survives_flushed in Hg; rewrite Hg, <- HP; symmetry; exact L6|]; split; [lia|auto]|].
  all: destruct e; apply wp_ret; auto.
Qed.

Lemma patchdd_success E argv w w' : patchdd_main E argv w = (Ok 0, w') ->
  exists src dst, src_of E argv = Some src /\ dst_of E argv = Some dst /\ let s := w_files w src in let d := w_files w dst in
    blen s <= blen d /\ w_files w' dst = patched s d /\ (forall j, j <> dst -> w_files w' j = w_files w j) /\
    exists tr, run_trace w w' tr /\ forall g, survives dst (rev tr) d g -> g = patched s d.
Proof.
  intros H. pose proof (wp_patchdd E argv w) as W. unfold wp in W. rewrite H in W. destruct W as (_ & A & B).
  destruct (src_of E argv) as [src|]; [|destruct B; discriminate]. destruct (dst_of E argv) as [dst|] eqn:D1; [|destruct B; discriminate].
  destruct B as (B1 & (tr & B2 & B3 & B4) & _). destruct (B4 eq_refl) as (C1 & C2 & C3). exists src, dst. cbv zeta. split; [reflexivity|]. split; [reflexivity|]. split; [exact C2|]. split; [exact C1|].
  split; [intros j Hj; apply A; congruence|]. eauto.
Qed.
Lemma patchdd_refuses E argv w src dst : src_of E argv = Some src -> dst_of E argv = Some dst -> blen (w_files w dst) < blen (w_files w src) ->
  exists w', patchdd_main E argv w = (Ok 1, w') /\ (forall j, w_files w' j = w_files w j) /\ w_trace w' = w_trace w.
Proof.
  intros H1 H2 Hl. pose proof (wp_patchdd E argv w) as W. unfold wp in W. destruct (patchdd_main E argv w) as [[c| | |] w'].
  - destruct W as (_ & _ & B). rewrite H1, H2 in B. destruct B as (_ & _ & B & _). destruct (B Hl) as (-> & C). eauto.
  - destruct W as (_ & _ & s & d & A & B & C & _). rewrite H1 in A. rewrite H2 in B. injection A as <-. injection B as <-. lia.
  - destruct W as (_ & _ & s & d & A & B & C & _). rewrite H1 in A. rewrite H2 in B. injection A as <-. injection B as <-. lia.
  - destruct W as (_ & _ & s & d & A & B & C & _). rewrite H1 in A. rewrite H2 in B. injection A as <-. injection B as <-. lia.
Qed.
Lemma patchdd_succeeds E argv w src dst : ~ asks_usage argv -> src_of E argv = Some src -> dst_of E argv = Some dst ->
  e_kind E src <> KOther -> e_kind E dst <> KOther -> blen (w_files w src) <= blen (w_files w dst) < OFF_LIMIT ->
  Forall (fun e => exists k, e = IoN k) (w_io w) -> (3 * length (w_files w src) < length (w_io w))%nat ->
  fst (patchdd_main E argv w) = Ok 0.
Proof.
  intros Hu H1 H2 K1 K2 Hl Hio Hn. pose proof (wp_patchdd E argv w) as W. unfold wp in W.
  assert (K : e_kind E dst = KReg \/ e_kind E dst = KBlk) by (destruct (e_kind E dst); auto; contradiction).
  destruct (patchdd_main E argv w) as [[c| | |] w']; cbn [fst].
  - destruct W as (_ & _ & B). rewrite H1, H2 in B. destruct B as (_ & _ & _ & B). rewrite B; eauto.
  - exfalso. destruct W as (_ & _ & s & d & A & B & C & _ & _ & D). rewrite H1 in A. rewrite H2 in B. injection A as <-. injection B as <-. apply D. split; [lia|auto].
  - exfalso. destruct W as (_ & _ & s & d & A & B & C & _ & _ & D). rewrite H1 in A. rewrite H2 in B. injection A as <-. injection B as <-. apply D. split; [lia|auto].
  - exfalso. destruct W as (_ & _ & s & d & A & B & C & _ & _ & D). rewrite H1 in A. rewrite H2 in B. injection A as <-. injection B as <-. apply D. split; [lia|auto].
Qed.
Lemma patchdd_stop E argv w : let w' := snd (patchdd_main E argv w) in
  fst (patchdd_main E argv w) <> UB /\ (forall j, dst_of E argv <> Some j -> w_files w' j = w_files w j) /\
  forall src dst, src_of E argv = Some src -> dst_of E argv = Some dst -> let s := w_files w src in let d := w_files w dst in
    mixed s d (w_files w' dst) /\ exists tr, run_trace w w' tr /\ block_writes s d dst tr.
Proof.
  pose proof (wp_patchdd E argv w) as W. unfold wp in W. cbv zeta. destruct (patchdd_main E argv w) as [[c| | |] w']; cbn [fst snd].
  - destruct W as (_ & A & B). split; [discriminate|]. split; [exact A|]. intros src dst H1 H2. rewrite H1, H2 in B. destruct B as (B1 & (tr & B2 & B3 & _) & _). eauto.
  - destruct W as (_ & A & s & d & H1 & H2 & _ & B & C & _). split; [discriminate|]. split; [exact A|]. intros src dst H3 H4. rewrite H1 in H3. rewrite H2 in H4. injection H3 as <-. injection H4 as <-. auto.
  - destruct W as (X & _). contradiction.
  - destruct W as (_ & A & s & d & H1 & H2 & _ & B & C & _). split; [discriminate|]. split; [exact A|]. intros src dst H3 H4. rewrite H1 in H3. rewrite H2 in H4. injection H3 as <-. injection H4 as <-. auto.
Qed.

(** Starting again after any stop *)
Lemma mixed_patched s d g : blen s <= blen d -> mixed s d g -> patched s g = patched s d.
Proof.
  intros L (A & B). unfold patched. f_equal. apply nth_error_ext. intros i. rewrite !nth_error_skipn. destruct (B (length s + i)%nat) as [H|(H & _)]; [exact H|lia].
Qed.
Lemma patchdd_rerun E argv w src dst w2 w3 : src_of E argv = Some src -> dst_of E argv = Some dst -> 
  let w1 := snd (patchdd_main E argv w) in
  (forall j, w_files w2 j = w_files w1 j) -> patchdd_main E argv w2 = (Ok 0, w3) ->
  w_files w3 dst = patched (w_files w src) (w_files w dst).
Proof.
  intros H1 H2 w1 Hw HR. destruct (patchdd_stop E argv w) as (_ & A & B). fold w1 in A, B. destruct (B _ _ H1 H2) as ((Lg & M) & _).
  apply patchdd_success in HR as (src' & dst' & S1 & D1 & HL & HP & _). rewrite H1 in S1. rewrite H2 in D1. injection S1 as <-. injection D1 as <-.
  rewrite HP, !Hw. assert (Es : w_files w1 src = w_files w src).
  { destruct (Nat.eq_dec src dst) as [->|Hne]; [|apply A; congruence]. apply nth_error_ext. intros i. destruct (M i) as [X|(_ & X)]; exact X. }
  rewrite Es. apply mixed_patched; [|split; auto]. rewrite !Hw, Es in HL. unfold blen in *. lia.
Qed.
