(** Consequences for scans of files and buffers (C14-C18). *)
From Verif Require Import Base Lib Utils Discr Chunker SpecBasic SpecChunker PfUtils PfBasic PfChunker PfScan.
Ltac Zify.zify_post_hook ::= Z.div_mod_to_equations.
Local Open Scope nat_scope.

Lemma tiles_app E l : forall off c, tiles E off (l ++ [c]) = tiles E off l ++ [((off + blen (concat l))%N, blen c, e_H E c)].
Proof.
  induction l as [|x l IH]; intros off c; cbn [app tiles concat].
  - cbn. now rewrite N.add_0_r.
  - rewrite IH. cbn [app]. rewrite blen_app, N.add_assoc. reflexivity.
Qed.

Lemma scan_fd_record E ino p D w : disc_of p D -> (p_max p <= UINT32_MAX)%N ->
  match chunker_scan_fd record E ino p [] w with
  | (Ok (true, log), w') => w_files w' = w_files w /\
      exists n, log = tiles E 0 (chunks p D (firstn n (w_files w ino))) /\
                (length (w_files w ino) <= n \/ In IoZero (w_io w))
  | (Ok (false, _), w') => w_files w' = w_files w /\ In IoErr (w_io w)
  | (Halt, w') => w_files w' = w_files w /\ w_io w' = [] /\ transfers (w_io w) <= length (w_files w ino)
  | _ => False
  end.
Proof.
  intros Hd Hm.
  pose (Inv := fun done log w' => log = tiles E 0 done /\ w_files w' = w_files w /\ suffix (w_io w') (w_io w)).
  pose (Fail := fun (log : list (N * N * bytes)) w' => w_files w' = w_files w /\ In IoErr (w_io w)).
  pose (R := fun b w' => b = BHalt /\ w_files w' = w_files w /\ w_io w' = [] /\ transfers (w_io w) <= length (w_files w ino)).
  assert (G := scan_fd_rule record E p D Hd Hm (w_files w ino) Inv Fail R).
  assert (Hcb : forall done c a w0, piece p D (w_files w ino) done c -> Inv done a w0 ->
     wp (record (blen (concat done)) (blen c) (e_H E c) a)
       (fun r w' => w_io w' = w_io w0 /\ (if fst r then Inv (done ++ [c]) (snd r) w' else Fail (snd r) w')) R w0).
  { intros done c a w0 _ (-> & Hw & Hs). apply wp_ret. split; [reflexivity|]. cbn [fst snd]. split; [|auto].
    rewrite tiles_app. reflexivity. }
  assert (In_suffix : forall e ev, suffix (e :: ev) (w_io w) -> In e (w_io w)).
  { intros e ev [q ->]. apply in_or_app. right. left. reflexivity. }
  specialize (G Hcb ino).
  specialize (G ltac:(intros ? ? ? (_ & -> & _); reflexivity)).
  specialize (G ltac:(intros ? ? ? ? ? (? & ? & Hs) Q; rewrite Q in Hs; split; [assumption|split; [assumption|exact (suffix_tl _ _ _ Hs)]])).
  specialize (G ltac:(intros ? ? ? ? (? & ? & Hs) Q; rewrite Q in Hs; split; [assumption|exact (In_suffix _ _ Hs)])).
  specialize (G (transfers (w_io w))).
  specialize (G ltac:(intros ? ? ? (? & ? & Hs) Q L; repeat split; assumption)).
  specialize (G (In IoZero (w_io w))).
  specialize (G ltac:(intros ? ? ? ? (? & ? & Hs) Q; rewrite Q in Hs; exact (In_suffix _ _ Hs))).
  specialize (G [] w (conj eq_refl (conj eq_refl (suffix_refl _))) (le_n _)).
  unfold wp in G. destruct (chunker_scan_fd record E ino p [] w) as [[[[|] log]| | |] w'];
    cbn [fst snd] in G; try (destruct G as [G _]; discriminate G); auto.
  - destruct G as (done & t' & Hch & Hf & Hz & (-> & Hw & _)). split; [exact Hw|].
    exists (length (concat done)). rewrite Hf, firstn_exact, Hch. split; [reflexivity|].
    destruct Hz as [->|Hz]; [left; rewrite app_nil_r; lia|right; exact Hz].
  - destruct G as (_ & G). exact G.
Qed.

(** With an error-free schedule that is long enough, the whole file. *)
Lemma scan_fd_total E ino p D w : disc_of p D -> (p_max p <= UINT32_MAX)%N ->
  error_free (w_io w) -> length (w_files w ino) < transfers (w_io w) ->
  exists w', chunker_scan_fd record E ino p [] w = (Ok (true, tiles E 0 (chunks p D (w_files w ino))), w') /\
             w_files w' = w_files w.
Proof.
  intros Hd Hm He Ht. pose proof (scan_fd_record E ino p D w Hd Hm) as G.
  unfold error_free in He. rewrite Forall_forall in He.
  assert (Hz : ~ In IoZero (w_io w)) by (intros I; apply He in I; exact I).
  assert (Hr : ~ In IoErr (w_io w)) by (intros I; apply He in I; exact I).
  destruct (chunker_scan_fd record E ino p [] w) as [[[[|] log]| | |] w']; try tauto.
  - destruct G as (Hw & n & -> & [L|Z]); [|tauto]. exists w'. rewrite firstn_all2 by lia. auto.
  - destruct G as (_ & _ & L). lia.
Qed.

(** Any sequence of buffers. *)
Lemma scan_bufs_rule E p D f (Hd : disc_of p D) (Hm : (p_max p <= UINT32_MAX)%N) :
  forall pieces st done cur w t, at_pos p D st done cur -> f = concat done ++ cur ++ concat pieces ++ t ->
  sc_arg st = tiles E 0 done ->
  exists st' done' cur', scan_bufs E pieces st w = (Ok (true, st'), w) /\ at_pos p D st' done' cur' /\
     concat done' ++ cur' = concat done ++ cur ++ concat pieces /\ sc_arg st' = tiles E 0 done'.
Proof.
  induction pieces as [|d pieces IH]; intros st done cur w t Hst Hf Ha; cbn [scan_bufs concat].
  - exists st, done, cur. rewrite app_nil_r. repeat split; auto; apply Hst.
  - cbn [concat] in Hf.
    pose (Inv := fun done log w' => log = tiles E 0 done /\ w' = w).
    assert (G := scan_buf_rule record E p D Hd Hm f Inv (fun _ _ => False) (fun _ _ => False)).
    assert (Hcb : forall done c a w0, piece p D f done c -> Inv done a w0 ->
     wp (record (blen (concat done)) (blen c) (e_H E c) a)
       (fun r w' => w_io w' = w_io w0 /\ (if fst r then Inv (done ++ [c]) (snd r) w' else False)) (fun _ _ => False) w0).
    { intros done0 c a w0 _ (-> & ->). apply wp_ret. split; [reflexivity|]. cbn [fst snd]. split; [|auto].
      rewrite tiles_app. reflexivity. }
    specialize (G Hcb (S (length d)) d st done cur w (concat pieces ++ t) Hst).
    specialize (G ltac:(rewrite Hf, <- app_assoc; reflexivity) ltac:(lia) (conj Ha eq_refl)).
    unfold wp in G. unfold bind.
    destruct (scan_buf record E (S (length d)) d st w) as [[[[|] st1]| | |] w1]; cbn [fst snd negb] in *; try tauto.
    destruct G as (_ & done1 & cur1 & Hst1 & Hcat & (Ha1 & ->)).
    destruct (IH st1 done1 cur1 w t Hst1) as (st' & done' & cur' & Es & Hst' & Hc' & Ha').
    + rewrite Hf. rewrite (app_assoc (concat done1)), Hcat, <- !app_assoc. reflexivity.
    + exact Ha1.
    + exists st', done', cur'. split; [exact Es|]. split; [exact Hst'|]. split; [|exact Ha'].
      rewrite Hc'. rewrite (app_assoc (concat done1)), Hcat, <- !app_assoc. reflexivity.
Qed.

Lemma scan_pieces_spec E p D pieces w : disc_of p D -> (p_max p <= UINT32_MAX)%N ->
  scan_pieces E p pieces w = (Ok (tiles E 0 (chunks p D (concat pieces))), w).
Proof.
  intros Hd Hm. unfold scan_pieces. destruct (chunker_init_spec p D Hd) as (c & Ec & Hc). rewrite Ec.
  unfold bind at 1, lift.
  destruct (scan_bufs_rule E p D (concat pieces) Hd Hm pieces (mkScan c 0%N 0%N []) [] [] w []) as
    (st & done & cur & Es & (Hl & Ho & Hh & Hop & Hdn) & Hcat & Ha).
  - unfold at_pos. cbn. repeat split; auto; apply Hc.
  - cbn. now rewrite app_nil_r.
  - reflexivity.
  - unfold bind. rewrite Es. unfold ret. f_equal. f_equal. cbn [concat app] in Hcat.
    rewrite <- Hcat, completes_app by assumption.
    destruct (sc_off st =? sc_last st)%N eqn:Eo.
    + assert (cur = []). { rewrite Hl, Ho, blen_app in Eo. destruct cur; [reflexivity|]. unfold blen in Eo. cbn [length] in Eo. lia. }
      subst cur. rewrite chunks_nil, app_nil_r. exact Ha.
    + assert (Hcur : cur <> []). { intros ->. rewrite Hl, Ho, app_nil_r in Eo. lia. }
      rewrite chunks_last by assumption. rewrite tiles_app, Ha. f_equal. f_equal.
      destruct Hh as (_ & _ & Hs & _). unfold chunker_get_id. rewrite Hs, Hl, Ho, blen_app. f_equal. f_equal; lia.
Qed.

(** ** C15, C18 *)
Lemma reached_holds p D c d : disc_of p D -> reached p c d ->
  holds p D c d /\ (forall j, 48 <= j < length d -> cut_here p D (firstn j d) = false).
Proof.
  intros Hd H. induction H as [c H|c d buf c' H [IH IHn] Hs|c d buf n c' H [IH IHn] Hs|c d H [IH IHn]].
  - destruct (chunker_init_spec p D Hd) as (c0 & Ec & Hc). rewrite Ec in H. injection H as <-. split; [exact Hc|].
    cbn. intros; lia.
  - destruct (chunker_scan_spec p D D (conj Hd eq_refl) c d buf IH IHn) as (r & c1 & Es & Hr).
    rewrite Es in Hs. injection Hs as -> ->. destruct Hr as [H1 H2]. split; [exact H1|].
    intros j Hj. apply (proj1 (first_cut_none _ _ _) H2). lia.
  - destruct (chunker_scan_spec p D D (conj Hd eq_refl) c d buf IH IHn) as (r & c1 & Es & Hr).
    rewrite Es in Hs. injection Hs as -> ->. destruct Hr as (_ & H1 & H2). split; [exact H1|].
    apply first_cut_some in H2. apply H2.
  - split; [eapply holds_reset; exact IH|]. cbn. intros; lia.
Qed.

Lemma reached_total p D c d buf : disc_of p D -> reached p c d ->
  exists r c', chunker_scan c buf = Ok (r, c') /\
    first_cut p D (d ++ buf) = match r with Some n => Some (length d + n)%nat | None => None end.
Proof.
  intros Hd H. destruct (reached_holds _ _ _ _ Hd H) as [Hh Hn].
  destruct (chunker_scan_spec p D D (conj Hd eq_refl) c d buf Hh Hn) as (r & c' & Es & Hr).
  exists r, c'. split; [exact Es|]. destruct r as [n|]; [|apply Hr].
  destruct Hr as (L & _ & Hc). unfold complete in Hc. rewrite app_length, firstn_length_le in Hc by lia.
  rewrite <- (firstn_skipn n buf), app_assoc. apply first_cut_app, Hc.
Qed.

Lemma reached_hash p D c d : disc_of p D -> reached p c d -> 48 <= length d -> c_h c = buzhash (last48 d).
Proof.
  intros Hd H L. destruct (reached_holds _ _ _ _ Hd H) as [(_ & _ & _ & _ & _ & Hs) _].
  replace (length d <? 48) with false in Hs by lia. apply Hs.
Qed.

Lemma reached_stuck p D c d buf n c' buf' : disc_of p D -> reached p c d -> chunker_scan c buf = Ok (Some n, c') ->
  chunker_scan c' buf' = Ok (Some 0, c').
Proof.
  intros Hd H Hs. destruct (reached_holds _ _ _ _ Hd H) as [Hh Hn].
  destruct (chunker_scan_spec p D D (conj Hd eq_refl) c d buf Hh Hn) as (r & c1 & Es & Hr).
  rewrite Es in Hs. injection Hs as -> ->. destruct Hr as (L & Hh' & Hc).
  set (d' := d ++ firstn n buf) in *. pose proof Hc as Hc'. apply first_cut_some in Hc'. destruct Hc' as (L' & Hcut & _).
  rewrite firstn_all in Hcut.
  destruct Hh' as (Hp & Hdi & Hs & Hz & Hw & Hst). replace (length d' <? 48) with false in Hst by lia.
  destruct Hst as (Hf & Hhh & Hr).
  unfold chunker_scan. rewrite Hf. change (Nat.ltb 48 WIN) with false. cbn [negb].
  cbn [c_fill c_params c_disc c_h c_size c_win c_sha firstn skipn Nat.add]. rewrite ?Nat.add_0_r, ?Hf.
  change (Nat.ltb 48 WIN) with false. cbn iota. cbn [N.of_nat]. rewrite N.add_0_r, app_nil_r.
  unfold chunker_shall_break. cbn [c_fill c_params c_disc c_h c_size c_win c_sha].
  rewrite Hp, Hdi, Hhh, Hz, (shall_break_cut p D D (conj Hd eq_refl)), Hcut.
  rewrite <- Hf. destruct c'. cbn in *. subst. reflexivity.
Qed.

(** ** C17 *)
Lemma boundary_resync p D a b : boundary_at_end p D a -> chunks p D (a ++ b) = chunks p D a ++ chunks p D b.
Proof.
  intros [->|(l & c & E & L & Hc)]; [reflexivity|].
  assert (Hall : Forall (complete p D) (l ++ [c])).
  { destruct (chunks_shape p D a) as (l' & t & E' & Hcl & _ & Ht). rewrite E in E'.
    destruct Ht as [->|(c' & -> & _ & Hop)].
    - rewrite app_nil_r in E'. now rewrite E'.
    - apply app_inj_tail in E'. destruct E' as [-> ->]. exfalso.
      pose proof (proj1 (first_cut_none _ _ _) Hop (length c')) as Q. rewrite firstn_all in Q. rewrite Q in Hc by lia. discriminate. }
  assert (Ea : a = concat (l ++ [c])) by (rewrite <- E; symmetry; apply chunks_concat).
  rewrite Ea at 1. rewrite completes_app by exact Hall. now rewrite E.
Qed.

(** ** C16 *)
Lemma chunks_sizes p D d l c r : chunks p D d = l ++ c :: r ->
  (blen c <= N.max 48 (p_max p) /\ (r <> [] -> N.max 48 (N.min (p_min p) (p_max p)) <= blen c))%N.
Proof.
  intros E. destruct (chunks_shape p D d) as (l' & t & E' & Hcl & _ & Ht). rewrite E' in E. clear E'.
  assert (G : (complete p D c \/ (r = [] /\ open_end p D c))).
  { destruct Ht as [->|(c' & -> & _ & Hop)].
    - rewrite app_nil_r in E. left. rewrite Forall_forall in Hcl. apply Hcl. rewrite E. apply in_or_app. right. left. reflexivity.
    - destruct r as [|x r].
      + apply app_inj_tail in E. destruct E as [_ ->]. auto.
      + left. rewrite Forall_forall in Hcl. apply Hcl.
        assert (Q : l' = l ++ c :: removelast (x :: r)).
        { apply (f_equal (@removelast _)) in E. rewrite removelast_last in E. rewrite E.
          rewrite removelast_app by discriminate. reflexivity. }
        rewrite Q. apply in_or_app. right. left. reflexivity. }
  destruct G as [G|[-> G]].
  - pose proof (complete_size p D c G). lia.
  - pose proof (open_size p D c G). split; [lia|congruence].
Qed.
