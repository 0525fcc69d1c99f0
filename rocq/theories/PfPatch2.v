(** Proofs about interrupted runs of patchdd (C103). *)
From Verif Require Import Base Lib SpecBasic Utils PfUtils PfBasic PfIO PfRead PfTarget PfSync SpecRun Ui Patchdd SpecPatch SpecClosing SpecFrontier SpecRepeat SpecPatch2 PfPatch PfRun PfFrontier MainProg.
Local Open Scope N_scope.

Lemma ascending_le : forall l lo hi, ascending lo l hi -> lo <= hi.
Proof. induction l as [|(o, x) l IH]; intros lo hi H; [exact H|]. destruct H as (A & B). specialize (IH _ _ B). lia. Qed.
Lemma ascending_app : forall a lo mid c hi, ascending lo a mid -> ascending mid c hi -> ascending lo (a ++ c) hi.
Proof.
  induction a as [|(o, x) a IH]; intros lo mid c hi H1 H2; cbn [app].
  - destruct c as [|(o, x) c]; cbn in *; [lia|]. destruct H2 as (A & B). split; [lia|exact B].
  - destruct H1 as (A & B). split; [exact A|]. eapply IH; eauto.
Qed.
Lemma ascending_weak : forall l lo hi lo' hi', ascending lo l hi -> lo' <= lo -> hi <= hi' -> ascending lo' l hi'.
Proof. induction l as [|(o, x) l IH]; intros lo hi lo' hi' H A B; cbn in *; [lia|]. destruct H as (C & D). split; [lia|]. eapply IH; eauto. lia. Qed.
Lemma writes_app a c : writes (a ++ c) = writes c ++ writes a. Proof. unfold writes. now rewrite rev_app_distr, flat_map_app. Qed.
Lemma writes_wev ino new : writes (map (wev ino) new) = rev new.
Proof. unfold writes. rewrite <- map_rev. induction (rev new) as [|(o, x) l IH]; [reflexivity|]. cbn. now rewrite IH. Qed.

(** ** One write *)
Lemma pwrite_loop_ascending ev : forall k f off data wr r f' wr' ev',
  pwrite_loop k f off data ev wr = (r, f', wr', ev') ->
  exists n new, (n <= length data)%nat /\ f' = fw f (N.to_nat off) (firstn n data) /\ (r = IoDone -> n = length data) /\
    wr' = new ++ wr /\ ascending off (rev new) (off + N.of_nat n) /\ (n = 0%nat -> new = []).
Proof.
  induction ev as [|e ev IH]; intros k f off data wr r f' wr' ev' H; destruct data as [|x data]; cbn [pwrite_loop] in H.
  1-3: injection H as <- <- <- <-; exists 0%nat, []; cbn; repeat split; auto; try lia; discriminate.
  set (D := x :: data) in *. assert (HD : (0 < length D)%nat) by (unfold D; cbn; lia).
  assert (Z : forall r0, r0 <> IoDone -> exists n new, (n <= length D)%nat /\ f = fw f (N.to_nat off) (firstn n D) /\ (r0 = IoDone -> n = length D) /\
    wr = new ++ wr /\ ascending off (rev new) (off + N.of_nat n) /\ (n = 0%nat -> new = [])) by (intros r0 Hr; exists 0%nat, []; cbn; repeat split; auto; try lia; contradiction).
  clearbody D. destruct e as [m| | |].
  - destruct (write_room k f off (N.min (N.of_nat (S m)) (blen D))) as [n|] eqn:W.
    2:{ injection H as <- <- <- <-. now apply Z. }
    assert (Hn : 0 < n /\ (N.to_nat n <= length D)%nat).
    { unfold write_room in W. destruct (OFF_LIMIT <=? off); [discriminate|]. unfold blen in *.
      destruct k; [|destruct (N.of_nat (length f) <=? off) eqn:EB; [discriminate|]|discriminate]; injection W as <-; lia. }
    destruct Hn as (Hn0 & Hn1). cbv zeta in H. apply IH in H as (n' & new & L' & -> & Hd & -> & Ha & _). rewrite skipn_length in *.
    assert (Hlen : length (firstn (N.to_nat n) D) = N.to_nat n) by (rewrite firstn_length; lia).
    assert (Hfw : file_write f (N.to_nat off) (firstn (N.to_nat n) D) = fw f (N.to_nat off) (firstn (N.to_nat n) D)).
    { destruct (firstn (N.to_nat n) D) eqn:EF; [|reflexivity]. cbn in Hlen. lia. }
    exists (N.to_nat n + n')%nat, (new ++ [(off, firstn (N.to_nat n) D)]). split; [lia|]. split.
    + rewrite Hfw, firstn_skipn_add, <- fw_app, Hlen. f_equal. lia.
    + split; [intros Hr; specialize (Hd Hr); lia|]. split; [now rewrite <- app_assoc|]. split; [|lia].
      rewrite rev_app_distr. cbn [rev app ascending]. split; [lia|]. unfold blen. rewrite Hlen, N2Nat.id. replace (off + N.of_nat (N.to_nat n + n')) with (off + n + N.of_nat n') by lia. exact Ha.
  - apply IH in H. exact H.
  - injection H as <- <- <- <-. now apply Z.
  - injection H as <- <- <- <-. now apply Z.
Qed.
Definition wrote (ino : nat) (data : bytes) (off : N) (n : nat) (w w' : world) : Prop :=
  (n <= length data)%nat /\ w_files w' ino = fw (w_files w ino) (N.to_nat off) (firstn n data) /\ (forall j, j <> ino -> w_files w' j = w_files w j) /\
  exists new, w_trace w' = map (wev ino) new ++ w_trace w /\ ascending off (rev new) (off + N.of_nat n) /\ (n = 0%nat -> new = []).
Lemma wp_wrote E ino data off w :
  wp (pwriteall E ino data off) (fun r w' => exists n, wrote ino data off n w w' /\ (r = true -> n = length data)) (fun _ w' => exists n, wrote ino data off n w w') w.
Proof.
  unfold wp, pwriteall. destruct (pwrite_loop (e_kind E ino) (w_files w ino) off data (w_io w) []) as [[[r f'] wr] ev'] eqn:EP.
  apply pwrite_loop_ascending in EP as (n & new & L & Ef & Hd & -> & Ha & Hz). rewrite app_nil_r in *. set (w1 := mkWorld _ _ _ _ _ _ _).
  assert (P : wrote ino data off n w w1).
  { unfold w1. split; [exact L|]. cbn [w_files w_trace]. unfold upd_file. rewrite Nat.eqb_refl. split; [exact Ef|]. split.
    - intros j Hj. destruct (Nat.eqb_spec j ino); [contradiction|reflexivity].
    - exists new. auto. }
  destruct r; exists n; auto. split; [exact P|discriminate].
Qed.

(** ** The loop *)
Section Loop.
Variables (E : env) (w0 : world) (src dst : nat) (lo : nat).
Let s := w_files w0 src.
Let d := w_files w0 dst.
Hypothesis (Hfit : (length s <= length d)%nat) (Hlo : (lo <= length s)%nat) (Hsame : firstn lo d = firstn lo s).
Lemma same_at i : (i < lo)%nat -> nth_error s i = nth_error d i.
Proof. intros Hi. assert (X := f_equal (fun l => nth_error l i) Hsame). cbv beta in X. rewrite !nth_error_firstn in X. destruct (Nat.ltb_spec i lo); [now symmetry|lia]. Qed.
Definition made (p : nat) (w : world) : Prop :=
  (lo <= p <= length s)%nat /\ at_off w0 src dst p (w_files w dst) /\ (src <> dst -> w_files w src = s) /\
  exists tr, w_trace w = tr ++ w_trace w0 /\ ascending (N.of_nat lo) (writes tr) (N.of_nat p).
Definition Halted (w : world) : Prop := exists p, made p w.

Lemma made_src p w : made p w -> w_files w src = s.
Proof.
  intros (_ & A & B & _). destruct (Nat.eq_dec src dst) as [Heq|Hne]; [|now apply B]. exact (at_off_src w0 src dst p w Heq A).
Qed.
Lemma made_nth p off w : (N.to_nat off <= length s)%nat -> p = Nat.max lo (N.to_nat off) -> made p w -> at_off w0 src dst (N.to_nat off) (w_files w dst).
Proof.
  intros Ho -> (_ & (A & B) & _). split; [exact A|]. intros i. rewrite B. destruct (Nat.ltb_spec i (Nat.max lo (N.to_nat off))), (Nat.ltb_spec i (N.to_nat off)); auto; try lia. apply same_at. lia.
Qed.
Lemma made_wrote off n fd m w w' : off + n <= blen s -> made (Nat.max lo (N.to_nat off)) w -> (fd <= N.to_nat n)%nat ->
  (forall i, (i < fd)%nat -> nth_error (slice_N off n s) i = nth_error (slice_N off n d) i) ->
  ((fd < N.to_nat n)%nat -> nth_error (slice_N off n s) fd <> nth_error (slice_N off n d) fd) ->
  wrote dst (skipn fd (slice_N off n s)) (off + N.of_nat fd) m w w' ->
  Halted w' /\ (m = length (skipn fd (slice_N off n s)) -> made (Nat.max lo (N.to_nat (off + n))) w').
Proof.
  intros Hn HM Hfd Heq Hne (W1 & W2 & W3 & new & W4 & W5 & W6). set (p := Nat.max lo (N.to_nat off)) in *. pose proof HM as (M1 & (M2a & M2b) & M3 & tr & M4 & M5).
  assert (Ln : forall (l : bytes) i, (i < N.to_nat n)%nat -> nth_error (slice_N off n l) i = nth_error l (N.to_nat off + i)).
  { intros l i Hi. unfold slice_N. rewrite nth_error_firstn. destruct (Nat.ltb_spec i (N.to_nat n)); [|lia]. now rewrite nth_error_skipn. }
  assert (Ls : length (slice_N off n s) = N.to_nat n) by (unfold slice_N; rewrite firstn_length, skipn_length; unfold blen in Hn; lia).
  set (data := skipn fd (slice_N off n s)) in *. assert (Ld : length data = (N.to_nat n - fd)%nat) by (unfold data; now rewrite skipn_length, Ls).
  assert (Hsd : (N.to_nat off + N.to_nat n <= length s)%nat) by (unfold blen in Hn; lia).
  assert (Eq : forall i, (N.to_nat off <= i < N.to_nat off + fd)%nat -> nth_error s i = nth_error d i).
  { intros i Hi. specialize (Heq (i - N.to_nat off)%nat ltac:(lia)). rewrite !Ln in Heq by lia. now replace (N.to_nat off + (i - N.to_nat off))%nat with i in Heq by lia. }
  assert (Src : src <> dst -> w_files w' src = s) by (intros Hx; rewrite W3 by exact Hx; now apply M3).
  assert (Beyond : (fd < N.to_nat n)%nat -> (lo <= N.to_nat off + fd)%nat).
  { intros Hlt. destruct (Nat.le_gt_cases lo (N.to_nat off + fd)) as [|Hgt]; [assumption|]. exfalso. apply (Hne Hlt). rewrite !Ln by lia. now apply same_at. }
  destruct (Nat.eq_dec m 0) as [Hm|Hm].
  - subst m. rewrite (W6 eq_refl) in *. cbn [map app firstn fw] in *. assert (Same : forall q, (p <= q <= N.to_nat off + fd)%nat \/ q = p -> (q <= length s)%nat -> made q w').
    { intros q Hq Hqs. split; [unfold p in *; lia|]. split.
      - rewrite W2. split; [exact M2a|]. intros i. rewrite M2b. destruct (Nat.ltb_spec i p), (Nat.ltb_spec i q); auto; [lia|]. symmetry. apply Eq. unfold p in *. lia.
      - split; [exact Src|]. exists tr. split; [now rewrite W4, M4|]. eapply ascending_weak; [exact M5|lia|lia]. }
    split; [exists p; apply Same; [now right|unfold p; lia]|]. intros Hl. apply Same; [unfold p; lia|lia].
  - assert (Hlt : (fd < N.to_nat n)%nat) by lia. specialize (Beyond Hlt). assert (Lm : length (firstn m data) = m) by (rewrite firstn_length; lia).
    assert (Now : made (N.to_nat off + fd + m) w').
    { split; [lia|]. split; [split|].
      - rewrite W2. unfold fw. destruct (firstn m data) as [|x0 l0] eqn:Ef; [exact M2a|]. rewrite length_file_write, Lm, M2a. fold s d. lia.
      - intros i. rewrite W2, nth_error_fw by (rewrite M2a; fold d; lia). rewrite Lm. replace (N.to_nat (off + N.of_nat fd)) with (N.to_nat off + fd)%nat by lia.
        destruct ((N.to_nat off + fd <=? i) && (i <? N.to_nat off + fd + m))%nat eqn:Ei.
        + apply andb_true_iff in Ei as (E1 & E2). apply Nat.leb_le in E1. rewrite E2. apply Nat.ltb_lt in E2.
          rewrite nth_error_firstn. destruct (Nat.ltb_spec (i - (N.to_nat off + fd)) m); [|lia]. unfold data. rewrite nth_error_skipn, Ln by lia. fold s. f_equal. lia.
        + rewrite M2b. fold s d. apply andb_false_iff in Ei. rewrite Nat.leb_gt, Nat.ltb_ge in Ei. destruct (Nat.ltb_spec i p), (Nat.ltb_spec i (N.to_nat off + fd + m)); auto; unfold p in *; try lia.
          symmetry. apply Eq. lia.
      - split; [exact Src|]. exists (map (wev dst) new ++ tr). split; [now rewrite W4, M4, app_assoc|]. rewrite writes_app, writes_wev.
        eapply ascending_app; [exact M5|]. eapply ascending_weak; [exact W5|unfold p; lia|lia]. }
    split; [eexists; exact Now|]. intros Hl. replace (Nat.max lo (N.to_nat (off + n))) with (N.to_nat off + fd + m)%nat by lia. exact Now.
Qed.
Lemma wp_made : forall fuel off skp w, (N.to_nat (blen s - off) < fuel)%nat -> off <= blen s -> made (Nat.max lo (N.to_nat off)) w ->
  wp (patch_loop E fuel src dst (blen s) off skp) (fun _ w' => Halted w') (fun _ w' => Halted w') w.
Proof.
  induction fuel as [|fuel IH]; intros off skp w Hf Ho HM; [lia|]. cbn [patch_loop]. assert (HH : Halted w) by (eexists; exact HM).
  destruct (N.leb_spec (blen s) off) as [Hle|Hlt]; [now apply wp_ret|].
  change TRANSFER_SIZE with 1048576. set (n := N.min (blen s - off) 1048576). assert (Hn : 0 < n /\ n <= 1048576 /\ off + n <= blen s) by (unfold n; lia).
  pose proof (made_src _ _ HM) as Hsrc. assert (Hat : at_off w0 src dst (N.to_nat off) (w_files w dst)) by (eapply made_nth; [unfold blen in Ho; lia|reflexivity|exact HM]).
  apply wp_bind, wp_pread; rewrite ?Hsrc.
  2:{ intros. cbn [negb]. apply wp_ret. exact HH. }
  2:{ intros. exact HH. }
  intros ev1 _ _ _ Ha _. cbn [negb]. apply wp_bind, wp_pread; cbn [w_files set_io w_io].
  2:{ intros. cbn [negb]. apply wp_ret. exact HH. }
  2:{ intros. exact HH. }
  intros ev2 _ _ _ Hb _. cbn [negb].
  assert (Eb : slice_N off n (w_files w dst) = slice_N off n d).
  { unfold slice_N. f_equal. apply nth_error_ext. intros i. rewrite !nth_error_skipn. destruct Hat as (_ & L3). rewrite L3.
    destruct (Nat.ltb_spec (N.to_nat off + i) (N.to_nat off)); [lia|reflexivity]. }
  rewrite Eb in *. set (fd := memcmp_offset (slice_N off n s) (slice_N off n d)).
  destruct (memcmp_offset_spec (slice_N off n s) (slice_N off n d)) as (F1 & F2 & F3); [unfold blen in *; lia|]. fold fd in F1, F2, F3.
  assert (Ls : length (slice_N off n s) = N.to_nat n) by (unfold blen in *; lia). rewrite Ls in F1, F3.
  set (wr := set_io ev2 _). assert (HMr : made (Nat.max lo (N.to_nat off)) wr) by exact HM.
  apply wp_bind. eapply wp_mono; [apply wp_wrote| |].
  - intros r w' (m & Hw & Hm). destruct (made_wrote off n fd m wr w') as (St & Full); auto; try lia.
    destruct r; cbn [negb]; [|now apply wp_ret]. specialize (Full (Hm eq_refl)).
    destruct (e_interactive E); [|apply wp_bind, wp_ret; apply IH; [lia|lia|exact Full]].
    apply wp_bind, wp_trace. apply IH; [lia|lia|]. destruct Full as (A & B & C & tr & D & F). split; [exact A|]. split; [exact B|]. split; [exact C|].
    eexists (_ :: tr). split; [cbn; rewrite D; reflexivity|]. change (_ :: tr) with ([TProgress (patchdd_percent (off + n) (blen s))] ++ tr). rewrite writes_app. cbn. rewrite app_nil_r. exact F.
  - intros bd w' (m & Hw). destruct (made_wrote off n fd m wr w') as (St & _); auto; try lia.
Qed.
End Loop.

(** ** A run *)
Definition reached (w : world) (src dst lo : nat) (w' : world) : Prop :=
  let s := w_files w src in let d := w_files w dst in
  exists p tr, (lo <= p <= length s)%nat /\ run_trace w w' tr /\ w_files w' dst = firstn p s ++ skipn p d /\ ascending (N.of_nat lo) (writes tr) (N.of_nat p).
Lemma start_over (s d : bytes) lo : firstn lo d = firstn lo s -> firstn lo s ++ skipn lo d = d.
Proof. intros <-. apply firstn_skipn. Qed.
Lemma halted_reached w src dst lo w' : (length (w_files w src) <= length (w_files w dst))%nat -> Halted w src dst lo w' -> reached w src dst lo w'.
Proof.
  intros Hl (p & (A & (B1 & B2) & _ & tr & C & D)). exists p, tr. split; [exact A|]. split; [exact C|]. split; [|exact D].
  apply nth_error_ext. intros i. rewrite B2. destruct (Nat.ltb_spec i p).
  - rewrite nth_error_app1 by (rewrite firstn_length; lia). rewrite nth_error_firstn. destruct (Nat.ltb_spec i p); [reflexivity|lia].
  - rewrite nth_error_app2 by (rewrite firstn_length; lia). rewrite firstn_length, Nat.min_l, nth_error_skipn by lia. f_equal. lia.
Qed.
Lemma patchdd_reached E argv w src dst lo : src_of E argv = Some src -> dst_of E argv = Some dst ->
  (lo <= length (w_files w src))%nat -> firstn lo (w_files w dst) = firstn lo (w_files w src) ->
  wp (patchdd_main E argv) (fun _ w' => reached w src dst lo w') (fun _ w' => reached w src dst lo w') w.
Proof.
  intros S1 D1 Hlo Hs.
  assert (Refuse : reached w src dst lo w).
  { exists lo, []. split; [lia|]. split; [reflexivity|]. split; [symmetry; now apply start_over|cbn; lia]. }
  unfold patchdd_main. destruct argv as [|a0 [|sp [|dp rest]]]; try (apply wp_ret, Refuse).
  destruct (beq sp (bs "-h") || beq sp (bs "--help"))%bool; [apply wp_ret, Refuse|].
  change (e_open E sp = Some src) in S1. change (e_open_rw E dp = Some dst) in D1. rewrite S1, D1.
  apply wp_bind. unfold fd_size at 1. unfold wp at 1.
  destruct (e_kind E src); [| |apply wp_ret, Refuse];
  (apply wp_bind; unfold fd_size at 1; unfold wp at 1; destruct (e_kind E dst); [| |apply wp_ret, Refuse];
  (destruct (N.ltb_spec (blen (w_files w dst)) (blen (w_files w src))) as [Hlt|Hge]; [apply wp_ret, Refuse|])).
  all: assert (Hfit : (length (w_files w src) <= length (w_files w dst))%nat) by (unfold blen in Hge; lia).
  all: apply wp_bind; eapply wp_mono;
    [apply (wp_made E w src dst lo Hfit Hlo Hs (S (N.to_nat (blen (w_files w src)))) 0 0 w); [lia|lia|]| |].
  all: try (intros bd w' H; now apply halted_reached).
  all: try (cbn [N.to_nat]; rewrite Nat.max_0_r; split; [lia|]; split; [split; [reflexivity|]; intros i; destruct (Nat.ltb_spec i lo); [symmetry; eapply same_at; eauto|reflexivity]|];
    split; [reflexivity|]; exists []; split; [reflexivity|cbn; lia]).
  all: intros [sk|] w' H; apply halted_reached in H; [|exact Hfit| |exact Hfit]; [|apply wp_ret, H].
  all: apply wp_bind; unfold fsync, wp at 1; destruct (w_io w') as [|e ev]; [exact H|].
  all: destruct H as (p & tr & A & B & C & D); unfold run_trace in B; destruct e; apply wp_ret; exists p.
  all: try (exists tr; split; [exact A|]; split; [exact B|]; split; [exact C|exact D]).
  all: exists (TSync dst :: tr); split; [exact A|]; split; [unfold run_trace; cbn; now rewrite B|]; split; [exact C|];
    change (TSync dst :: tr) with ([TSync dst] ++ tr); rewrite writes_app; cbn; rewrite app_nil_r; exact D.
Qed.
Lemma patchdd_forward E argv w src dst lo : src_of E argv = Some src -> dst_of E argv = Some dst ->
  (lo <= length (w_files w src))%nat -> firstn lo (w_files w dst) = firstn lo (w_files w src) ->
  reached w src dst lo (snd (patchdd_main E argv w)).
Proof. intros A B C D. pose proof (patchdd_reached E argv w src dst lo A B C D) as W. unfold wp in W. destruct (patchdd_main E argv w) as [[]]; exact W. Qed.

(** ** Several runs *)
Lemma ascending_amount : forall l lo hi, ascending lo l hi -> (N.to_nat lo + total (fun w => length (snd w)) l <= N.to_nat hi)%nat.
Proof. induction l as [|(o, x) l IH]; intros lo hi H; unfold total in *; cbn in *; [lia|]. destruct H as (A & B). specialize (IH _ _ B). unfold blen in IH. lia. Qed.
Lemma firstn_join (s g : bytes) p : (p <= length s)%nat -> firstn p (firstn p s ++ skipn p g) = firstn p s.
Proof. intros H. rewrite firstn_app, firstn_length, Nat.min_l, Nat.sub_diag, firstn_O, app_nil_r, firstn_firstn, Nat.min_id by lia. reflexivity. Qed.
Lemma skipn_join (s g : bytes) p q : (p <= q)%nat -> (p <= length s)%nat -> skipn q (firstn p s ++ skipn p g) = skipn q g.
Proof.
  intros H Hp. apply nth_error_ext. intros i. rewrite !nth_error_skipn, nth_error_app2; rewrite firstn_length, Nat.min_l; try lia. rewrite nth_error_skipn. f_equal. lia.
Qed.
Lemma patchings_total s : forall l g g' lo, patchings s g l g' -> (lo <= length s)%nat -> firstn lo g = firstn lo s ->
  exists p trs, (lo <= p <= length s)%nat /\ g' = firstn p s ++ skipn p g /\ Forall2 (fun a tr => run_trace (at_world a) (pat_end a) tr) l trs /\ (lo + total amount trs <= p)%nat.
Proof.
  induction l as [|a l IH]; intros g g' lo H Hlo Hs.
  - cbn in H. subst g'. exists lo, []. split; [lia|]. split; [symmetry; now apply start_over|]. split; [constructor|cbn; lia].
  - destruct H as ((src & S1 & S2) & D1 & D2 & H).
    destruct (patchdd_forward (at_env a) (at_argv a) (at_world a) src (at_target a) lo S1 D1) as (p & tr & A & B & C & D); [now rewrite S2|now rewrite S2, D2|].
    rewrite S2, D2 in *. fold (pat_end a) in *. unfold run_trace in B.
    destruct (IH _ _ p H) as (q & trs & A' & B' & C' & D'); [lia|rewrite C; apply firstn_join; lia|].
    exists q, (tr :: trs). split; [lia|]. split; [rewrite B', C, skipn_join by lia; reflexivity|]. split; [constructor; auto|].
    apply ascending_amount in D. unfold amount, total in *. cbn [fold_right]. rewrite !Nat2N.id in D. lia.
Qed.
