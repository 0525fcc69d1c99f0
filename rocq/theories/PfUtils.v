(** Proofs about Utils.v. *)
From Verif Require Import Base Utils Lib.
Ltac Zify.zify_post_hook ::= Z.div_mod_to_equations.
Local Open Scope nat_scope.

(** Case analysis on the first conditional of a hypothesis. *)
Ltac hif H := match type of H with context [if ?b then _ else _] => destruct b end.

(** ** read_loop *)
Lemma firstn_min_len {A} n (l : list A) : firstn (Nat.min n (length l)) l = firstn n l.
Proof.
  destruct (le_lt_dec n (length l)).
  - now rewrite Nat.min_l by lia.
  - rewrite Nat.min_r by lia. rewrite firstn_all. now rewrite firstn_all2 by lia.
Qed.

Lemma read_loop_spec ev : forall avail len got r got' ev',
  read_loop avail len ev got = (r, got', ev') ->
  match r with
  | IoDone => (len <= blen avail)%N /\ got' = got ++ firstn (N.to_nat len) avail
  | IoAssert => False
  | _ => exists n, (N.of_nat n < len)%N /\ n <= length avail /\ got' = got ++ firstn n avail
  end.
Proof.
  induction ev as [|e ev IH]; intros avail len got r got' ev' H; cbn in H.
  - destruct (len =? 0)%N eqn:E; injection H as <- <- <-.
    + apply N.eqb_eq in E; subst. cbn. rewrite app_nil_r. split; [lia|reflexivity].
    + exists 0. cbn. rewrite app_nil_r. repeat split; lia.
  - destruct (len =? 0)%N eqn:E.
    { injection H as <- <- <-. apply N.eqb_eq in E; subst. cbn. rewrite app_nil_r. split; [lia|reflexivity]. }
    assert (Hz : forall A (P Q : A -> Prop), True) by auto. clear Hz.
    assert (F : exists n, (N.of_nat n < len)%N /\ n <= length avail /\ got = got ++ firstn n avail).
    { exists 0. cbn. rewrite app_nil_r. repeat split; lia. }
    destruct e as [k| | |].
    + set (n := N.min (N.pos (Pos.of_succ_nat k)) (N.min len (blen avail))) in *.
      destruct (n =? 0)%N eqn:En.
      { injection H as <- <- <-. exact F. }
      apply IH in H.
      assert (Hn : (n <= len)%N /\ N.to_nat n <= length avail) by (unfold n, blen; lia).
      destruct Hn as [Hn1 Hn2].
      destruct r.
      * destruct H as [H1 ->]. unfold blen in H1. rewrite skipn_length in H1. split; [unfold blen; lia|].
        rewrite <- app_assoc, <- firstn_skipn_add. do 2 f_equal. lia.
      * destruct H as [m (H1 & H2 & ->)]. rewrite skipn_length in H2.
        exists (N.to_nat n + m). rewrite <- app_assoc, <- firstn_skipn_add. repeat split; lia.
      * exact H.
      * destruct H as [m (H1 & H2 & ->)]. rewrite skipn_length in H2.
        exists (N.to_nat n + m). rewrite <- app_assoc, <- firstn_skipn_add. repeat split; lia.
    + apply IH in H. exact H.
    + injection H as <- <- <-. exact F.
    + injection H as <- <- <-. exact F.
Qed.

(** Progress: with enough transfer events and no failure events, a read of available bytes is done. *)
Definition good_io (e : ioev) : bool := match e with IoN _ | IoIntr => true | _ => false end.

Lemma read_loop_good ev : forall avail len got r got' ev',
  forallb good_io ev = true -> (len <= blen avail)%N ->
  read_loop avail len ev got = (r, got', ev') ->
  (r = IoDone \/ r = IoHalt) /\ forallb good_io ev' = true.
Proof.
  induction ev as [|e ev IH]; intros avail len got r got' ev' G L H; cbn in H.
  - destruct (len =? 0)%N; injection H as <- <- <-; auto.
  - cbn in G. apply andb_prop in G as [Ge G].
    destruct (len =? 0)%N eqn:E. { injection H as <- <- <-. cbn. rewrite Ge, G. auto. }
    destruct e as [k| | |]; try discriminate Ge.
    + set (n := N.min (N.pos (Pos.of_succ_nat k)) (N.min len (blen avail))) in *.
      assert (Hn : (0 < n)%N /\ (n <= len)%N) by (unfold n; lia).
      destruct (n =? 0)%N eqn:En; [lia|]. apply IH in H; auto.
      unfold blen in *. rewrite skipn_length. lia.
    + apply IH in H; auto.
Qed.

(** Events are only consumed. *)
Definition suffix {A} (s l : list A) : Prop := exists p, l = p ++ s.
Lemma suffix_refl {A} (l : list A) : suffix l l. Proof. exists []. reflexivity. Qed.
Lemma suffix_cons {A} (x : A) s l : suffix s l -> suffix s (x :: l).
Proof. intros [p ->]. exists (x :: p). reflexivity. Qed.
Lemma suffix_tl {A} (x : A) s l : suffix (x :: s) l -> suffix s l.
Proof. intros [p ->]. exists (p ++ [x]). rewrite <- app_assoc. reflexivity. Qed.
Lemma suffix_trans {A} (a b c : list A) : suffix a b -> suffix b c -> suffix a c.
Proof. intros [p ->] [q ->]. exists (q ++ p). now rewrite app_assoc. Qed.
Lemma suffix_length {A} (a b : list A) : suffix a b -> length a <= length b.
Proof. intros [p ->]. rewrite app_length. lia. Qed.
Lemma suffix_nil {A} (l : list A) : suffix [] l. Proof. exists l. now rewrite app_nil_r. Qed.
Lemma suffix_Forall {A} (P : A -> Prop) (a b : list A) : suffix a b -> Forall P b -> Forall P a.
Proof. intros [p ->] H. apply Forall_app in H. tauto. Qed.
Lemma suffix_forallb {A} (P : A -> bool) (a b : list A) : suffix a b -> forallb P b = true -> forallb P a = true.
Proof. intros [p ->] H. rewrite forallb_app in H. apply andb_prop in H. tauto. Qed.

Lemma read_loop_suffix ev : forall avail len got r got' ev',
  read_loop avail len ev got = (r, got', ev') -> suffix ev' ev.
Proof.
  induction ev as [|e ev IH]; intros avail len got r got' ev' H; cbn in H.
  - destruct (len =? 0)%N; injection H as <- <- <-; apply suffix_refl.
  - destruct (len =? 0)%N. { injection H as <- <- <-; apply suffix_refl. }
    destruct e as [k| | |].
    + hif H; [injection H as <- <- <-; apply suffix_cons, suffix_refl|].
      apply suffix_cons. eapply IH; eauto.
    + apply suffix_cons. eapply IH; eauto.
    + injection H as <- <- <-; apply suffix_cons, suffix_refl.
    + injection H as <- <- <-; apply suffix_cons, suffix_refl.
Qed.

(** A read that wants something uses at least one event unless there is none. *)
Lemma read_loop_uses ev : forall avail len got r got' ev',
  read_loop avail len ev got = (r, got', ev') -> (0 < len)%N ->
  length ev' < length ev \/ ev = [].
Proof.
  destruct ev as [|e ev]; intros avail len got r got' ev' H L; [auto|]. left. cbn in H.
  destruct (len =? 0)%N eqn:E; [lia|].
  assert (G : suffix ev' ev).
  { destruct e as [k| | |]; try (injection H as <- <- <-; apply suffix_refl).
    - hif H; [injection H as <- <- <-; apply suffix_refl|]. eapply read_loop_suffix; eauto.
    - eapply read_loop_suffix; eauto. }
  apply suffix_length in G. cbn. lia.
Qed.

(** The loop ends with the schedule only when the whole schedule is used. *)
Lemma read_loop_halt ev : forall avail len got got' ev',
  read_loop avail len ev got = (IoHalt, got', ev') -> ev' = [].
Proof.
  induction ev as [|e ev IH]; intros avail len got got' ev' H; cbn in H.
  - destruct (len =? 0)%N; inversion H; auto.
  - destruct (len =? 0)%N. { inversion H. }
    destruct e as [k| | |]; try discriminate H.
    + hif H; [discriminate H|]. eapply IH; eauto.
    + eapply IH; eauto.
Qed.

(** ** file_write *)
Definition fw (f : bytes) (off : nat) (d : bytes) : bytes :=
  match d with [] => f | _ => file_write f off d end.

Lemma nth_error_file_write f off d i :
  nth_error (file_write f off d) i =
  if i <? off then (if i <? length f then nth_error f i else Some 0%N)
  else if i <? off + length d then nth_error d (i - off)
  else nth_error f i.
Proof.
  unfold file_write. rewrite !nth_error_app, firstn_length, repeat_length, nth_error_repeat,
    nth_error_skipn, nth_error_firstn.
  destruct (i <? off) eqn:E1.
  - destruct (i <? length f) eqn:E2.
    + replace (i <? Nat.min off (length f)) with true by lia. reflexivity.
    + replace (i <? Nat.min off (length f)) with false by lia.
      replace (i - Nat.min off (length f) <? off - length f) with true by lia. reflexivity.
  - replace (i <? Nat.min off (length f)) with false by lia.
    replace (i - Nat.min off (length f) <? off - length f) with false by lia.
    destruct (i <? off + length d) eqn:E2.
    + replace (i - Nat.min off (length f) - (off - length f) <? length d) with true by lia.
      f_equal. lia.
    + replace (i - Nat.min off (length f) - (off - length f) <? length d) with false by lia.
      f_equal. lia.
Qed.

Lemma length_file_write f off d :
  length (file_write f off d) = Nat.max (length f) (off + length d).
Proof. unfold file_write. rewrite !app_length, firstn_length, repeat_length, skipn_length. lia. Qed.

Lemma fw_app f off d1 d2 : fw (fw f off d1) (off + length d1) d2 = fw f off (d1 ++ d2).
Proof.
  destruct d1 as [|x d1]; [cbn [length app fw]; now rewrite Nat.add_0_r|].
  destruct d2 as [|y d2]; [now rewrite app_nil_r|].
  set (a := x :: d1). set (b := y :: d2).
  assert (Ha : fw f off a = file_write f off a) by reflexivity.
  assert (Hb : forall g o, fw g o b = file_write g o b) by reflexivity.
  assert (Hab : fw f off (a ++ b) = file_write f off (a ++ b)) by reflexivity.
  rewrite Hab, Hb, Ha. clear Ha Hb Hab.
  apply nth_error_ext; intros i.
  rewrite !nth_error_file_write, length_file_write, nth_error_app, app_length.
  destruct (i <? off) eqn:E1.
  - replace (i <? off + length a) with true by lia.
    replace (i <? Nat.max (length f) (off + length a)) with true by lia. reflexivity.
  - destruct (i <? off + length a) eqn:E2.
    + replace (i <? Nat.max (length f) (off + length a)) with true by lia.
      replace (i <? off + (length a + length b)) with true by lia.
      replace (i - off <? length a) with true by lia. reflexivity.
    + replace (off + (length a + length b)) with (off + length a + length b) by lia.
      destruct (i <? off + length a + length b) eqn:E3; [|reflexivity].
      replace (i - off <? length a) with false by lia. f_equal. lia.
Qed.

Lemma length_fw f off d : off <= length f \/ d <> [] ->
  length (fw f off d) = Nat.max (length f) (off + length d).
Proof.
  destruct d as [|x d]; cbn [fw].
  - intros [H|H]; [cbn; lia|congruence].
  - intros _. apply length_file_write.
Qed.

Lemma nth_error_fw f off d i : off <= length f ->
  nth_error (fw f off d) i =
  if (off <=? i) && (i <? off + length d) then nth_error d (i - off) else nth_error f i.
Proof.
  intros L. destruct d as [|x d].
  - cbn [fw length]. replace ((off <=? i) && (i <? off + 0)) with false by lia. reflexivity.
  - cbn [fw]. rewrite nth_error_file_write.
    destruct (i <? off) eqn:E1.
    + replace (i <? length f) with true by lia.
      replace (off <=? i) with false by lia. reflexivity.
    + replace (off <=? i) with true by lia. reflexivity.
Qed.

Lemma fw_prefix f off d : off <= length f ->
  firstn (off + length d) (fw f off d) = firstn off f ++ d.
Proof.
  intros L. apply nth_error_ext; intros i.
  rewrite nth_error_firstn, nth_error_fw by lia.
  rewrite nth_error_app, firstn_length, nth_error_firstn, Nat.min_l by lia.
  destruct (i <? off + length d) eqn:E1; destruct (i <? off) eqn:E2; try lia.
  - replace (off <=? i) with false by lia. reflexivity.
  - replace (off <=? i) with true by lia. reflexivity.
  - symmetry. apply nth_error_None. lia.
Qed.

(** ** pwrite_loop *)
Definition wr_ok (off : N) (data : bytes) (p : N * bytes) : Prop :=
  (off <= fst p)%N /\ (fst p + blen (snd p) <= off + blen data)%N /\ snd p <> [] /\
  snd p = firstn (length (snd p)) (skipn (N.to_nat (fst p - off)) data).

Lemma wr_ok_weaken off n data p :
  (N.to_nat n <= length data) ->
  wr_ok (off + n) (skipn (N.to_nat n) data) p -> wr_ok off data p.
Proof.
  unfold wr_ok, blen. rewrite skipn_length. intros L (H1 & H2 & H3 & H4).
  repeat split; try lia; auto.
  rewrite H4 at 1. f_equal. rewrite <- skipn_add. f_equal. lia.
Qed.

Lemma pwrite_loop_spec ev : forall k f off data wr r f' wr' ev',
  pwrite_loop k f off data ev wr = (r, f', wr', ev') ->
  exists n, n <= length data /\ f' = fw f (N.to_nat off) (firstn n data) /\
    (r = IoDone -> n = length data) /\
    suffix ev' ev /\
    (exists new, wr' = new ++ wr /\ Forall (wr_ok off data) new) /\
    (k = KBlk -> length f' = length f) /\
    (n <> 0 -> (off < OFF_LIMIT)%N).
Proof.
  induction ev as [|e ev IH]; intros k f off data wr r f' wr' ev' H.
  - destruct data as [|x data]; cbn in H; injection H as <- <- <- <-; exists 0.
    + repeat split; auto using suffix_refl; try lia. exists []. auto.
    + cbn. repeat split; auto using suffix_refl; try lia; try congruence. exists []. auto.
  - destruct data as [|x data].
    { cbn in H; injection H as <- <- <- <-; exists 0.
      repeat split; auto using suffix_refl; try lia. exists []. auto. }
    set (D := x :: data) in *.
    assert (Z : exists n, n <= length D /\ f = fw f (N.to_nat off) (firstn n D) /\ n = 0) by (exists 0; repeat split; lia).
    assert (HD : (0 < length D)) by (unfold D; cbn; lia).
    change (match e with
            | IoN m =>
              match write_room k f off (N.min (N.of_nat (S m)) (blen D)) with
              | None => (IoFailed, f, wr, ev)
              | Some n => pwrite_loop k (file_write f (N.to_nat off) (firstn (N.to_nat n) D)) (off + n)
                            (skipn (N.to_nat n) D) ev ((off, firstn (N.to_nat n) D) :: wr)
              end
            | IoIntr => pwrite_loop k f off D ev wr
            | IoErr => (IoFailed, f, wr, ev)
            | IoZero => (IoAssert, f, wr, ev)
            end = (r, f', wr', ev')) in H.
    clearbody D. destruct e as [m| | |].
    + destruct (write_room k f off (N.min (N.of_nat (S m)) (blen D))) as [n|] eqn:W.
      2:{ injection H as <- <- <- <-. exists 0. cbn. repeat split; auto using suffix_cons, suffix_refl; try lia; try congruence. exists []; auto. }
      assert (Hn : (0 < n)%N /\ N.to_nat n <= length D /\ (off < OFF_LIMIT)%N /\
                   (k = KBlk -> (off + n <= blen f)%N)).
      { unfold write_room in W. destruct (OFF_LIMIT <=? off)%N eqn:EL; [discriminate|].
        unfold blen in *. destruct k; [|destruct (N.of_nat (length f) <=? off)%N eqn:EB; [discriminate|]|discriminate];
        injection W as <-; repeat split; try lia; intros; try congruence; lia. }
      destruct Hn as (Hn0 & Hn1 & HL & HB).
      apply IH in H as (n' & L' & -> & Hd & Hs & (new & -> & Hnew) & Hk & Ho).
      rewrite skipn_length in L'.
      assert (Hfw : file_write f (N.to_nat off) (firstn (N.to_nat n) D) = fw f (N.to_nat off) (firstn (N.to_nat n) D)).
      { destruct (firstn (N.to_nat n) D) eqn:EF; [|reflexivity].
        apply (f_equal (@length _)) in EF. rewrite firstn_length in EF. cbn in EF. lia. }
      assert (Hlen : length (firstn (N.to_nat n) D) = N.to_nat n) by (rewrite firstn_length; lia).
      exists (N.to_nat n + n'). repeat split.
      * lia.
      * rewrite Hfw, firstn_skipn_add, <- fw_app, Hlen. f_equal. lia.
      * intros Hr. specialize (Hd Hr). rewrite skipn_length in Hd. lia.
      * apply suffix_cons. exact Hs.
      * exists (new ++ [(off, firstn (N.to_nat n) D)]). split; [now rewrite <- app_assoc|].
        apply Forall_app. split.
        { eapply Forall_impl; [|exact Hnew]. intros p Hp. eapply wr_ok_weaken; eauto. }
        constructor; [|constructor]. unfold wr_ok, blen; cbn [fst snd]. rewrite Hlen, N.sub_diag. cbn [N.to_nat skipn].
        repeat split; try lia. intros E0. rewrite E0 in Hlen. cbn in Hlen. lia.
      * intros Hblk. rewrite (Hk Hblk), length_file_write, Hlen. specialize (HB Hblk). unfold blen in HB. lia.
      * intros _. exact HL.
    + apply IH in H as (n' & L' & -> & Hd & Hs & Hnew & Hk & Ho). exists n'. repeat split; auto using suffix_cons.
    + injection H as <- <- <- <-. exists 0. cbn. repeat split; auto using suffix_cons, suffix_refl; try lia; try congruence. exists []; auto.
    + injection H as <- <- <- <-. exists 0. cbn. repeat split; auto using suffix_cons, suffix_refl; try lia; try congruence. exists []; auto.
Qed.

Lemma pwrite_loop_good ev : forall k f off data wr r f' wr' ev',
  forallb good_io ev = true ->
  (off + blen data <= OFF_LIMIT)%N -> k <> KOther -> (k = KBlk -> (off + blen data <= blen f)%N) ->
  pwrite_loop k f off data ev wr = (r, f', wr', ev') ->
  (r = IoDone \/ r = IoHalt) /\ forallb good_io ev' = true.
Proof.
  induction ev as [|e ev IH]; intros k f off data wr r f' wr' ev' G L K1 K2 H.
  - destruct data; cbn in H; injection H as <- <- <- <-; auto.
  - destruct data as [|x data]. { cbn in H; injection H as <- <- <- <-; auto. }
    set (D := x :: data) in *.
    assert (HD : (0 < length D)) by (unfold D; cbn; lia).
    change (match e with
            | IoN m =>
              match write_room k f off (N.min (N.of_nat (S m)) (blen D)) with
              | None => (IoFailed, f, wr, ev)
              | Some n => pwrite_loop k (file_write f (N.to_nat off) (firstn (N.to_nat n) D)) (off + n)
                            (skipn (N.to_nat n) D) ev ((off, firstn (N.to_nat n) D) :: wr)
              end
            | IoIntr => pwrite_loop k f off D ev wr
            | IoErr => (IoFailed, f, wr, ev)
            | IoZero => (IoAssert, f, wr, ev)
            end = (r, f', wr', ev')) in H.
    clearbody D. cbn in G. apply andb_prop in G as [Ge G].
    destruct e as [m| | |]; try discriminate Ge.
    + destruct (write_room k f off (N.min (N.of_nat (S m)) (blen D))) as [n|] eqn:W; unfold write_room in W.
      2:{ exfalso. destruct (OFF_LIMIT <=? off)%N eqn:EL; [unfold blen in *; lia|].
          destruct k; [discriminate| |congruence].
          destruct (blen f <=? off)%N eqn:EB; [|discriminate]. specialize (K2 eq_refl). unfold blen in *. lia. }
      assert (N.to_nat n <= length D).
      { destruct (OFF_LIMIT <=? off)%N; [discriminate|]. unfold blen in *.
        destruct k; [|destruct (N.of_nat (length f) <=? off)%N; [discriminate|]|discriminate]; injection W as <-; lia. }
      eapply IH in H; eauto.
      * unfold blen in *. rewrite skipn_length. lia.
      * intros KB. specialize (K2 KB). unfold blen in *.
        rewrite skipn_length, length_file_write, firstn_length. lia.
    + eapply IH; eauto.
Qed.

(** ** write_loop *)
Lemma write_loop_spec ev : forall out data r out' ev',
  write_loop out data ev = (r, out', ev') ->
  exists n, n <= length data /\ out' = out ++ firstn n data /\ (r = IoDone -> n = length data).
Proof.
  induction ev as [|e ev IH]; intros out data r out' ev' H.
  - destruct data; cbn in H; injection H as <- <- <-; exists 0; cbn; rewrite app_nil_r; repeat split; try lia; congruence.
  - destruct data as [|x data].
    { cbn in H; injection H as <- <- <-; exists 0; cbn; rewrite app_nil_r; repeat split; lia. }
    set (D := x :: data) in *.
    assert (HD : (0 < length D)) by (unfold D; cbn; lia).
    change (match e with
            | IoN m => write_loop (out ++ firstn (Nat.min (S m) (length D)) D) (skipn (Nat.min (S m) (length D)) D) ev
            | IoIntr => write_loop out D ev
            | IoErr => (IoFailed, out, ev)
            | IoZero => (IoAssert, out, ev)
            end = (r, out', ev')) in H.
    clearbody D. destruct e as [m| | |].
    + apply IH in H as (n & L & -> & Hd). rewrite skipn_length in L.
      exists (Nat.min (S m) (length D) + n). repeat split; [lia| |].
      * now rewrite firstn_skipn_add, app_assoc.
      * intros Hr. specialize (Hd Hr). rewrite skipn_length in Hd. lia.
    + apply IH in H. exact H.
    + injection H as <- <- <-. exists 0. cbn. rewrite app_nil_r. repeat split; try lia; congruence.
    + injection H as <- <- <-. exists 0. cbn. rewrite app_nil_r. repeat split; try lia; congruence.
Qed.

Lemma write_loop_good ev : forall out data r out' ev',
  forallb good_io ev = true -> write_loop out data ev = (r, out', ev') ->
  r = IoDone \/ r = IoHalt.
Proof.
  induction ev as [|e ev IH]; intros out data r out' ev' G H.
  - destruct data; cbn in H; injection H as <- <- <-; auto.
  - cbn in G. apply andb_prop in G as [Ge G].
    destruct data as [|x data]. { cbn in H; injection H as <- <- <-; auto. }
    destruct e as [m| | |]; try discriminate Ge; cbn in H; eapply IH; eauto.
Qed.

(** ** Monadic operations *)
Definition slice_N (off len : N) (f : bytes) : bytes := firstn (N.to_nat len) (skipn (N.to_nat off) f).

Lemma wp_preadall ino len off (Q : bool * bytes -> world -> Prop) (R : bad -> world -> Prop) w :
  (forall ev', suffix ev' (w_io w) -> (off + len <= blen (w_files w ino))%N \/ len = 0%N ->
     ((0 < len)%N -> (off < OFF_LIMIT)%N /\ length ev' < length (w_io w)) ->
     length (slice_N off len (w_files w ino)) = N.to_nat len ->
     Q (true, slice_N off len (w_files w ino)) (set_io ev' w)) ->
  (forall ev' n, suffix ev' (w_io w) -> (N.of_nat n < len)%N ->
     n <= length (w_files w ino) - N.to_nat off ->
     length (slice_N off (N.of_nat n) (w_files w ino)) = n ->
     Q (false, slice_N off (N.of_nat n) (w_files w ino)) (set_io ev' w)) ->
  (R BHalt (set_io [] w)) ->
  wp (preadall ino len off) Q R w.
Proof.
  intros H1 H2 H3. unfold wp, preadall.
  destruct (len =? 0)%N eqn:E0.
  { apply N.eqb_eq in E0; subst len.
    specialize (H1 (w_io w) (suffix_refl _) (or_intror eq_refl)). rewrite set_io_id in H1.
    apply H1; [lia|reflexivity]. }
  destruct (OFF_LIMIT <=? off)%N eqn:EL.
  { destruct (w_io w) as [|e ev'] eqn:Ew.
    - rewrite <- (set_io_id w), Ew. exact H3.
    - apply (H2 ev' 0); cbn; auto using suffix_cons, suffix_refl; lia. }
  destruct (read_loop _ len (w_io w) []) as [[r got] ev'] eqn:ER.
  pose proof (read_loop_suffix _ _ _ _ _ _ _ ER) as HS.
  pose proof (read_loop_uses _ _ _ _ _ _ _ ER) as HU.
  pose proof (read_loop_halt (w_io w)) as HH.
  pose proof (read_loop_spec _ _ _ _ _ _ _ ER) as HR.
  set (f := w_files w ino) in *.
  assert (HS' : skipn (N.to_nat (N.min off (blen f))) f = skipn (N.to_nat off) f).
  { destruct (N.le_gt_cases off (blen f)).
    - now rewrite N.min_l by lia.
    - rewrite N.min_r by lia. unfold blen in *. rewrite !skipn_all2; [reflexivity|lia|lia]. }
  rewrite HS' in *. cbn [app] in HR. destruct r.
  - destruct HR as [L ->]. unfold blen in L. rewrite skipn_length in L.
    apply H1; auto.
    + left. unfold blen. lia.
    + intros _. split; [lia|]. destruct HU as [HU|HU]; [lia|exact HU|].
      rewrite HU in ER. cbn in ER. rewrite E0 in ER. discriminate.
    + unfold slice_N. rewrite firstn_length, skipn_length. lia.
  - destruct HR as [n (L & L2 & ->)]. rewrite skipn_length in L2.
    replace (firstn n (skipn (N.to_nat off) f)) with (slice_N off (N.of_nat n) f)
      by (unfold slice_N; now rewrite Nat2N.id).
    apply H2; auto. unfold slice_N. rewrite Nat2N.id, firstn_length, skipn_length. lia.
  - destruct HR.
  - eapply HH in ER. subst. exact H3.
Qed.

Lemma wp_pwriteall E ino data off (Q : bool -> world -> Prop) (R : bad -> world -> Prop) w :
  (forall r n ev' wr, n <= length data -> suffix ev' (w_io w) -> Forall (wr_ok off data) wr ->
     (r = true -> n = length data) ->
     (e_kind E ino = KBlk -> length (fw (w_files w ino) (N.to_nat off) (firstn n data)) = length (w_files w ino)) ->
     (n <> 0 -> (off < OFF_LIMIT)%N) ->
     Q r (mkWorld (upd_file (w_files w) ino (fw (w_files w ino) (N.to_nat off) (firstn n data))) ev'
            (w_alloc w) (w_kcapi w) (w_kev w) (w_nperf w) (trace_writes ino wr (w_trace w)))) ->
  (forall b n ev' wr, n <= length data -> suffix ev' (w_io w) -> Forall (wr_ok off data) wr ->
     (e_kind E ino = KBlk -> length (fw (w_files w ino) (N.to_nat off) (firstn n data)) = length (w_files w ino)) ->
     (n <> 0 -> (off < OFF_LIMIT)%N) -> b <> BUB ->
     R b (mkWorld (upd_file (w_files w) ino (fw (w_files w ino) (N.to_nat off) (firstn n data))) ev'
            (w_alloc w) (w_kcapi w) (w_kev w) (w_nperf w) (trace_writes ino wr (w_trace w)))) ->
  wp (pwriteall E ino data off) Q R w.
Proof.
  intros HQ HR. unfold wp, pwriteall.
  destruct (pwrite_loop (e_kind E ino) (w_files w ino) off data (w_io w) []) as [[[r f'] wr] ev'] eqn:EP.
  apply pwrite_loop_spec in EP as (n & L & -> & Hd & Hs & (new & -> & Hnew) & Hk & Ho).
  rewrite app_nil_r. destruct r.
  - apply HQ; auto.
  - apply HQ; auto. discriminate.
  - apply HR; auto. discriminate.
  - apply HR; auto. discriminate.
Qed.
