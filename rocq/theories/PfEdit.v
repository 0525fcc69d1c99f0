(** C82: an edit costs only the chunks around it. *)
From Verif Require Import Base Lib SpecBasic SpecEnv Chunker Caibx MainProg SpecChunker SpecCaibx SpecMain SpecRun SpecProgress SpecDelta SpecEdit PfChunker PfChunkProps PfScan PfSync PfDelta.
Local Open Scope N_scope.

(** ** The chunks of the two images *)
Lemma boundary_complete p D a : boundary_at_end p D a -> Forall (complete p D) (chunks p D a).
Proof.
  intros [->|(l & c & E & L & Hc)]; [constructor|]. rewrite E. destruct (chunks_shape p D a) as (l' & t & E' & Hcl & _ & Ht). rewrite E in E'.
  destruct Ht as [->|(c' & -> & _ & Hop)].
  - rewrite app_nil_r in E'. now rewrite E'.
  - apply app_inj_tail in E'. destruct E' as [-> ->]. exfalso.
    pose proof (proj1 (first_cut_none _ _ _) Hop (length c')) as Q. rewrite firstn_all in Q. rewrite Q in Hc by lia. discriminate.
Qed.
Lemma three p D a x b : boundary_at_end p D a -> boundary_at_end p D x -> chunks p D (a ++ x ++ b) = chunks p D a ++ chunks p D x ++ chunks p D b.
Proof. intros A B. rewrite boundary_resync by exact A. f_equal. now apply boundary_resync. Qed.
Lemma least_many p l : (forall c : bytes, In c l -> least_chunk p <= blen c) -> N.of_nat (length l) * least_chunk p <= blen (concat l).
Proof.
  induction l as [|c l IH]; intros H; [cbn; lia|]. cbn [length concat]. rewrite Nat2N.inj_succ, N.mul_succ_l, blen_app.
  pose proof (H c (or_introl eq_refl)). specialize (IH (fun y Hy => H y (or_intror Hy))). lia.
Qed.
Lemma edit_size p D x : boundary_at_end p D x -> N.of_nat (length (chunks p D x)) * least_chunk p <= blen x.
Proof.
  intros H. rewrite <- (chunks_concat p D x) at 2. apply least_many. intros c Hc. pose proof (boundary_complete p D x H) as F. rewrite Forall_forall in F. exact (proj1 (complete_size p D c (F c Hc))).
Qed.

(** ** Counting *)
Lemma middle_count (A B : nat) n : (length (filter (fun i => negb (negb ((A <=? i) && (i <? A + B)))) (seq 0 n)) <= B)%nat.
Proof.
  etransitivity; [|exact (Nat.eq_le_incl _ _ (seq_length B A))]. apply NoDup_incl_length; [apply NoDup_filter, seq_NoDup|]. intros i Hi. apply filter_In in Hi. destruct Hi as (_ & Hi).
  rewrite negb_involutive in Hi. apply andb_prop in Hi. destruct Hi as (H1 & H2). apply Nat.leb_le in H1. apply Nat.ltb_lt in H2. apply in_seq. lia.
Qed.
Lemma outside {T} (l m r m' : list T) i c : nth_error (l ++ m ++ r) i = Some c -> negb ((length l <=? i)%nat && (i <? length l + length m)%nat) = true -> In c (l ++ m' ++ r).
Proof.
  intros H Hi. apply negb_true_iff, andb_false_iff in Hi. destruct (Nat.lt_ge_cases i (length l)) as [Hl|Hl].
  - rewrite nth_error_app1 in H by exact Hl. apply in_or_app. left. eapply nth_error_In; eauto.
  - destruct Hi as [Hi|Hi]; [apply Nat.leb_gt in Hi; lia|]. apply Nat.ltb_ge in Hi. rewrite nth_error_app2, nth_error_app2 in H by lia. do 2 (apply in_or_app; right). eapply nth_error_In; eauto.
Qed.

(** ** Where an index says a piece is *)
Lemma described_slice E f n pieces : describes E f n pieces -> forall i P g rest, concat pieces = g -> nth_error pieces i = Some P -> ent_slice f i (g ++ rest) = P.
Proof.
  intros HD i P g rest <- HP. assert (Hi : (i < n)%nat) by (destruct HD as (<- & _); apply nth_error_Some; congruence).
  destruct (piece_at _ _ _ _ HD i Hi) as (P' & P1 & _ & _ & _ & P3). assert (P' = P) as -> by congruence. apply nth_error_split in HP. destruct HP as (l & r & -> & HL).
  unfold ent_slice, slice. rewrite P3, (start_concat _ _ _ _ HD) by lia. rewrite firstn_app, HL, Nat.sub_diag, <- HL, firstn_all. cbn [firstn]. rewrite app_nil_r.
  rewrite concat_app, <- app_assoc, skipn_app, skipn_all, Nat.sub_diag. cbn [skipn app concat]. unfold blen. rewrite Nat2N.id, <- app_assoc, firstn_app, firstn_all, Nat.sub_diag. cbn [firstn]. apply app_nil_r.
Qed.

(** ** The requests *)
Section Edit.
Variables (E : env) (argv : list bytes) (w : world) (iino : nat) (p : params) (n : N) (D : N) (a x y b old new : bytes).
Hypothesis (HS : sane E argv w) (Hh : hash_reliable E w) (He : error_free (w_io w)) (Ha : ~ In false (w_alloc w)).
Hypothesis (Hi : e_open E (cmd_index argv) = Some iino) (HV : valid_index (w_files w iino) p n).
Hypothesis (HD : describes E (w_files w iino) (N.to_nat n) (chunks p D new)) (Hed : edit p D a x y b old new).

Lemma edit_count k arg j tr : nth_error (cmd_stores argv) k = Some arg -> run_trace w (snd (main E argv w)) tr -> (k < j)%nat ->
  (forall c, In c (chunks p D old) -> seeded E w (cmd_target argv) p arg (e_H E c)) ->
  total (ask_ev j) tr <= N.of_nat (length (chunks p D x)) /\ total (ask_ev j) tr * least_chunk p <= blen x.
Proof.
  intros Hk R Hj Hs. assert (G : total (ask_ev j) tr <= N.of_nat (length (chunks p D x))).
  { destruct Hed as [-> -> Ba Bx By]. rewrite three in HD, Hs by assumption. etransitivity.
    - apply (delta_few E argv w iino p n k arg j tr (fun i => negb ((length (chunks p D a) <=? i)%nat && (i <? length (chunks p D a) + length (chunks p D x))%nat)) HS Hh He Ha Hi HV Hk R Hj).
      intros i Hin X. destruct (piece_at _ _ _ _ HD i Hin) as (P & P1 & _ & _ & P2 & _). rewrite P2. apply Hs. exact (outside _ _ _ (chunks p D y) i P P1 X).
    - pose proof (middle_count (length (chunks p D a)) (length (chunks p D x)) (N.to_nat n)). lia. }
  split; [exact G|]. etransitivity; [|apply edit_size, (edit_x _ _ _ _ _ _ _ _ Hed)]. apply N.mul_le_mono_r. exact G.
Qed.
Lemma edit_scan k arg path ino j tr : nth_error (cmd_stores argv) k = Some arg -> classify_arg (cmd_target argv) arg = ArgLocal path None -> e_open E path = Some ino ->
  w_files w ino = old -> disc_of p D -> p_max p <= BUF_SIZE -> run_trace w (snd (main E argv w)) tr -> (k < j)%nat ->
  total (ask_ev j) tr <= N.of_nat (length (chunks p D x)) /\ total (ask_ev j) tr * least_chunk p <= blen x.
Proof.
  intros Hk Hc Ho Hf Hd Hm R Hj. apply (edit_count k arg j tr Hk R Hj). intros c Hin. rewrite <- Hf in Hin. exact (seed_scan E w _ p arg path ino D c Hc Ho Hd Hm Hin).
Qed.
Lemma edit_index k arg path ip ino jino q m rest j tr : nth_error (cmd_stores argv) k = Some arg -> classify_arg (cmd_target argv) arg = ArgLocal path (Some ip) -> e_open E path = Some ino ->
  e_open E ip = Some jino -> e_kind E jino <> KOther -> w_files w ino = old ++ rest -> valid_index (w_files w jino) q m ->
  p_min q = p_min p -> p_avg q = p_avg p -> p_max q = p_max p -> describes E (w_files w jino) (N.to_nat m) (chunks p D old) ->
  p_max p <= BUF_SIZE -> run_trace w (snd (main E argv w)) tr -> (k < j)%nat ->
  total (ask_ev j) tr <= N.of_nat (length (chunks p D x)) /\ total (ask_ev j) tr * least_chunk p <= blen x.
Proof.
  intros Hk Hc Ho Hoi Hki Hf Hv Q1 Q2 Q3 Hdo Hm R Hj. apply (edit_count k arg j tr Hk R Hj). intros c Hin. apply In_nth_error in Hin. destruct Hin as (i & Hin).
  assert (Hlt : (i < N.to_nat m)%nat). { destruct Hdo as (<- & _). apply nth_error_Some. congruence. }
  assert (Hid : e_H E c = ent_id (w_files w jino) i). { destruct Hdo as (_ & H). symmetry. apply (H i c Hin). }
  assert (Hsz : forall i P, nth_error (chunks p D old) i = Some P -> 0 < blen P <= BUF_SIZE).
  { intros i' P HP. apply nth_error_In in HP. split.
    - pose proof (chunks_nonempty p D old) as F. rewrite Forall_forall in F. specialize (F P HP). destruct P; [congruence|]. unfold blen. cbn [length]. lia.
    - apply in_split in HP. destruct HP as (l & r & HP). apply chunks_sizes in HP. unfold BUF_SIZE in *. lia. }
  rewrite Hid. eapply (seed_index E w _ p arg path ip ino jino q m i); eauto.
  - intros i' Hi'. destruct (piece_at _ _ _ _ Hdo i' Hi') as (P & P1 & _ & _ & _ & P3). rewrite P3. exact (Hsz i' P P1).
  - intros i' Hi'. destruct (piece_at _ _ _ _ Hdo i' Hi') as (P & P1 & P2 & _ & P4 & P3). rewrite P3. split; [apply (Hsz i' P P1)|].
    assert (Hend : ent_end (w_files w jino) i' <= blen old).
    { pose proof (start_concat _ _ _ _ Hdo (S i') ltac:(lia)) as X. cbn [ent_start] in X. rewrite <- (chunks_concat p D old). rewrite <- (firstn_skipn (S i') (chunks p D old)) at 1.
      rewrite concat_app, blen_app. unfold blen at 1. lia. }
    split; [rewrite Hf, blen_app; lia|]. rewrite P4. f_equal. rewrite Hf. exact (described_slice _ _ _ _ Hdo i' P old rest (chunks_concat p D old) P1).
Qed.
End Edit.
