(** Scanning a file: rules for the callback (C14, C16). *)
From Verif Require Import Base Lib Utils Discr Chunker SpecBasic SpecChunker PfUtils PfBasic PfChunker.
Ltac Zify.zify_post_hook ::= Z.div_mod_to_equations.
Local Open Scope nat_scope.

(** Sizes of chunks. *)
Lemma complete_size p D c : complete p D c ->
  (N.max 48 (N.min (p_min p) (p_max p)) <= blen c <= N.max 48 (p_max p))%N.
Proof.
  intros H. apply first_cut_some in H. destruct H as (L & F & J). rewrite firstn_all in F.
  unfold cut_here in F. split.
  - unfold blen in *. lia.
  - destruct (le_lt_dec (length c) 48) as [|G]; [unfold blen; lia|].
    assert (Jc := J (length c - 1)). unfold cut_here in Jc. unfold blen in Jc. rewrite firstn_length_le in Jc by lia.
    unfold blen. lia.
Qed.
Lemma open_size p D c : open_end p D c -> (blen c < N.max 48 (p_max p))%N.
Proof.
  intros H. pose proof (proj1 (first_cut_none _ _ _) H) as J. destruct (le_lt_dec 48 (length c)) as [G|]; [|unfold blen; lia].
  specialize (J (length c)). rewrite firstn_all in J. unfold cut_here in J. unfold blen in *. lia.
Qed.
Lemma open_nil p D : open_end p D [].
Proof. apply first_cut_none. cbn. intros; lia. Qed.

Lemma blen_firstn n (l : bytes) : n <= length l -> blen (firstn n l) = N.of_nat n.
Proof. intros. unfold blen. now rewrite firstn_length_le. Qed.

Section Rule.
Context {A : Type}.
Variables (cb : N -> N -> bytes -> A -> M (bool * A)) (E : env) (p : params) (D : N).
Hypothesis (Hd : disc_of p D) (Hmax : (p_max p <= UINT32_MAX)%N).
Variables (f : bytes) (Inv : list bytes -> A -> world -> Prop) (Fail : A -> world -> Prop)
  (R : bad -> world -> Prop).

(** A chunk as handed to the callback. *)
Definition piece (done : list bytes) (c : bytes) : Prop :=
  Forall (complete p D) done /\ (complete p D c \/ c <> [] /\ open_end p D c) /\
  exists t, f = concat done ++ c ++ t.

Hypothesis Hcb : forall done c a w, piece done c -> Inv done a w ->
  wp (cb (blen (concat done)) (blen c) (e_H E c) a)
     (fun r w' => w_io w' = w_io w /\
        if fst r then Inv (done ++ [c]) (snd r) w' else Fail (snd r) w') R w.

Definition at_pos (st : scan_st (A := A)) (done : list bytes) (cur : bytes) : Prop :=
  sc_last st = blen (concat done) /\ sc_off st = blen (concat done ++ cur) /\
  holds p D (sc_c st) cur /\ open_end p D cur /\ Forall (complete p D) done.

Lemma piece_size done c : piece done c -> (blen c mod M32 = blen c)%N.
Proof.
  intros (_ & H & _). apply N.mod_small. change M32 with 4294967296%N. unfold UINT32_MAX in Hmax.
  destruct H as [H|[_ H]]; [apply complete_size in H|apply open_size in H]; lia.
Qed.

Lemma scan_buf_rule : forall fuel buf st done cur w t,
  at_pos st done cur -> f = concat done ++ cur ++ buf ++ t -> length buf < fuel ->
  Inv done (sc_arg st) w ->
  wp (scan_buf cb E fuel buf st)
     (fun r w' => w_io w' = w_io w /\
        if fst r then exists done' cur', at_pos (snd r) done' cur' /\
             concat done' ++ cur' = concat done ++ cur ++ buf /\ Inv done' (sc_arg (snd r)) w'
        else Fail (sc_arg (snd r)) w') R w.
Proof.
  induction fuel as [|fuel IH]; intros buf st done cur w t Hst Hf Hfuel HI; [lia|].
  cbn [scan_buf]. destruct buf as [|b0 buf0] eqn:Eb.
  - apply wp_ret. cbn [fst snd]. split; [reflexivity|]. exists done, cur. split; [exact Hst|]. now rewrite app_nil_r.
  - rewrite <- Eb in *. assert (Hne : length buf <> 0) by (subst buf; discriminate). clear Eb.
    destruct Hst as (Hl & Ho & Hh & Hop & Hdn).
    destruct (chunker_scan_spec p D D (conj Hd eq_refl) (sc_c st) cur buf Hh) as (r & c' & Es & Hr).
    { intros j Hj. apply (proj1 (first_cut_none _ _ _) Hop). lia. }
    rewrite Es. apply wp_bind, wp_lift. destruct r as [n|].
    + destruct Hr as (Ln & Hh' & Hc).
      assert (Hpc : piece done (cur ++ firstn n buf)).
      { split; [exact Hdn|]. split; [left; exact Hc|]. exists (skipn n buf ++ t). rewrite Hf.
        rewrite <- (firstn_skipn n buf) at 1. now rewrite <- !app_assoc. }
      assert (Eo : (sc_off st + N.of_nat n = blen (concat (done ++ [cur ++ firstn n buf])))%N).
      { rewrite Ho, concat_app. cbn [concat]. rewrite app_nil_r, !blen_app.
        rewrite (blen_firstn n buf) by lia. lia. }
      apply wp_bind.
      replace ((sc_off st + N.of_nat n - sc_last st) mod M32)%N with (blen (cur ++ firstn n buf)).
      2:{ rewrite <- (piece_size done _ Hpc) at 1. f_equal. rewrite Eo, Hl, concat_app, !blen_app. cbn [concat].
          rewrite app_nil_r, !blen_app. lia. }
      rewrite Hl. unfold chunker_get_id. assert (Hs' : c_sha c' = cur ++ firstn n buf) by apply Hh'. rewrite Hs'.
      eapply wp_mono; [exact (Hcb _ _ _ _ Hpc HI)| |auto]. intros [ok a] w' [Hio HI']. cbn [fst snd] in HI'.
      destruct ok; cbn [negb].
      * eapply wp_mono.
        -- apply (IH (skipn n buf) _ (done ++ [cur ++ firstn n buf]) [] w' t).
           ++ unfold at_pos. cbn [sc_last sc_off sc_c]. rewrite app_nil_r. split; [exact Eo|]. split; [exact Eo|].
              split; [|split; [apply open_nil|]].
              ** eapply holds_reset. exact Hh'.
              ** apply Forall_app. auto.
           ++ cbn [app]. rewrite concat_app. cbn [concat]. rewrite app_nil_r, Hf.
              rewrite <- (firstn_skipn n buf) at 1. now rewrite <- !app_assoc.
           ++ rewrite skipn_length.
              assert (0 < n); [|lia].
              destruct n; [|lia]. cbn [firstn] in Hc. rewrite app_nil_r in Hc.
              unfold complete in Hc. unfold open_end in Hop. congruence.
           ++ exact HI'.
        -- intros [ok st'] w2 [Hio2 H2]. cbn [fst snd] in *. split; [congruence|]. destruct ok; [|exact H2].
           destruct H2 as (done' & cur' & Hst' & Hcat & HI2). exists done', cur'. split; [exact Hst'|]. split; [|exact HI2].
           rewrite Hcat, concat_app. cbn [concat app]. rewrite app_nil_r. rewrite <- !app_assoc, (firstn_skipn n buf). reflexivity.
        -- auto.
      * apply wp_ret. cbn [fst snd sc_arg]. split; [exact Hio|exact HI'].
    + apply wp_ret. cbn [fst snd sc_arg]. split; [reflexivity|]. destruct Hr as (Hh' & Hop').
      exists done, (cur ++ buf). split; [|split; [reflexivity|exact HI]].
      unfold at_pos. cbn [sc_last sc_off sc_c]. split; [exact Hl|]. split; [rewrite Ho, !blen_app; lia|]. auto.
Qed.

Variable ino : nat.
Hypothesis Hfile : forall done a w, Inv done a w -> w_files w ino = f.
Hypothesis Hio : forall done a w e ev, Inv done a w -> w_io w = e :: ev -> Inv done a (set_io ev w).
Hypothesis Herr : forall done a w ev, Inv done a w -> w_io w = IoErr :: ev -> Fail a (set_io ev w).
(** Number of transfers in the schedule: an exhausted schedule did not suffice to read the file. *)
Variable T0 : nat.
Hypothesis Hhalt : forall done a w, Inv done a w -> w_io w = [] -> T0 <= length f -> R BHalt w.
(** [zero]: whether a read may have returned 0 before the end of the file. *)
Variable zero : Prop.
Hypothesis Hzero : forall done a w ev, Inv done a w -> w_io w = IoZero :: ev -> zero.

Lemma scan_reads_rule : forall fuel st done cur w t,
  at_pos st done cur -> f = concat done ++ cur ++ t -> length (w_io w) < fuel ->
  Inv done (sc_arg st) w -> T0 <= transfers (w_io w) + length (concat done ++ cur) ->
  wp (scan_reads cb E fuel ino (blen (concat done ++ cur)) st)
     (fun r w' => if fst r then exists done' cur' t', at_pos (snd r) done' cur' /\
             f = concat done' ++ cur' ++ t' /\ (t' = [] \/ zero) /\ Inv done' (sc_arg (snd r)) w'
        else Fail (sc_arg (snd r)) w') R w.
Proof.
  induction fuel as [|fuel IH]; intros st done cur w t Hst Hf Hfuel HI HT; [lia|].
  cbn [scan_reads]. apply wp_bind. unfold wp at 1, read1.
  destruct (w_io w) as [|e ev] eqn:Eio; [apply (Hhalt _ _ _ HI Eio); cbn [transfers] in HT; rewrite Hf, app_assoc, app_length; lia|].
  pose proof (Hio _ _ _ _ _ HI Eio) as HI'.
  cbn [length] in Hfuel.
  destruct e.
  - rewrite (Hfile _ _ _ HI).
    set (d := firstn _ _). assert (Hpre : exists t', t = d ++ t').
    { unfold d. rewrite Hf, app_assoc, skipn_app_ge by (rewrite !blen_app; unfold blen; rewrite !app_length; lia).
      set (a := N.to_nat _). set (b := (_ - _)%nat).
      assert (b = 0) by (unfold b; rewrite !blen_app; unfold blen; rewrite !app_length; lia).
      rewrite H. cbn [skipn]. exists (skipn a t). now rewrite firstn_skipn. }
    destruct Hpre as [t' Ht].
    assert (Hz : d = [] -> t = []).
    { intros H0. subst d. rewrite Hf in H0. rewrite app_assoc in H0.
      rewrite skipn_app_ge in H0 by (rewrite !blen_app; unfold blen; rewrite !app_length; lia).
      set (b := (_ - _)%nat) in H0. assert (Hb : b = 0) by (unfold b; rewrite !blen_app; unfold blen; rewrite !app_length; lia).
      rewrite Hb in H0. cbn [skipn] in H0. destruct t as [|x t]; [reflexivity|].
      apply (f_equal (@length N)) in H0. rewrite firstn_length in H0. cbn [length] in H0. change BUFSIZ with 8192%N in H0. lia. }
    clearbody d. destruct d as [|x d0] eqn:Ed.
    + apply wp_ret. cbn [fst snd]. exists done, cur, t. rewrite (Hz eq_refl). rewrite (Hz eq_refl) in Hf. auto.
    + rewrite <- Ed in *. assert (Hd0 : length d <> 0) by (rewrite Ed; discriminate). clear Ed. subst t. apply wp_bind.
      eapply wp_mono; [apply (scan_buf_rule (S (length d)) d st done cur _ t' Hst Hf); [lia|exact HI']| |auto].
      intros [ok st'] w2 [Hl H2]. cbn [fst snd] in *. destruct ok; cbn [negb].
      * destruct H2 as (done' & cur' & Hst' & Hcat & HI2).
        replace (blen (concat done ++ cur) + blen d)%N with (blen (concat done' ++ cur')).
        2:{ rewrite Hcat, !blen_app. lia. }
        apply (IH st' done' cur' w2 t'); auto.
        -- rewrite Hf. rewrite !app_assoc. f_equal. rewrite Hcat. now rewrite <- app_assoc.
        -- rewrite Hl. cbn. lia.
        -- rewrite Hl, Hcat, !app_length. rewrite app_length in HT. cbn [transfers set_io w_io] in *.
           lia.
      * apply wp_ret. exact H2.
  - apply (IH st done cur _ t); auto; cbn in *; lia.
  - apply wp_ret. cbn [fst snd]. eauto.
  - apply wp_ret. cbn [fst snd]. exists done, cur, t. eauto 8.
Qed.

Lemma scan_fd_rule arg w : Inv [] arg w -> T0 <= transfers (w_io w) ->
  wp (chunker_scan_fd cb E ino p arg)
     (fun r w' => if fst r then exists done t', chunks p D (concat done) = done /\ f = concat done ++ t' /\ (t' = [] \/ zero) /\
                                Inv done (snd r) w'
                  else Fail (snd r) w') R w.
Proof.
  intros HI HT. unfold chunker_scan_fd. destruct (chunker_init_spec p D Hd) as (c & Ec & Hc).
  rewrite Ec. apply wp_bind, wp_lift, wp_bind.
  assert (H0 : at_pos (mkScan c 0%N 0%N arg) [] []).
  { unfold at_pos. cbn. repeat split; auto; try apply Hc. }
  pose proof (scan_reads_rule (S (length (w_io w))) (mkScan c 0%N 0%N arg) [] [] w f H0 eq_refl (le_n _) HI) as G.
  specialize (G ltac:(cbn; lia)).
  cbn [concat app] in G. change (blen []) with 0%N in G. unfold wp at 1. unfold wp in G at 1.
  destruct (scan_reads cb E (S (length (w_io w))) ino 0 (mkScan c 0%N 0%N arg) w) as [[[ok st]| | |] w1]; auto.
  cbn [fst snd] in G. destruct ok; cbn [negb]; [|apply wp_ret; exact G].
  destruct G as (done & cur & t' & (Hl & Ho & Hh & Hop & Hdn) & Hf & Hz & HI1).
  destruct (sc_off st =? sc_last st)%N eqn:Eo.
  - assert (cur = []). { rewrite Hl, Ho, blen_app in Eo. destruct cur; [reflexivity|]. unfold blen in Eo. cbn [length] in Eo. lia. }
    subst cur. apply wp_ret. cbn [fst snd]. exists done, t'. split; [|auto].
    pose proof (completes_app p D done [] Hdn) as G. rewrite app_nil_r, chunks_nil, app_nil_r in G. exact G.
  - assert (Hcur : cur <> []). { intros ->. rewrite Hl, Ho, app_nil_r in Eo. lia. }
    assert (Hpc : piece done cur) by (split; [exact Hdn|split; [auto|exists t'; exact Hf]]).
    replace ((sc_off st - sc_last st) mod M32)%N with (blen cur).
    2:{ rewrite <- (piece_size done _ Hpc) at 1. f_equal. rewrite Hl, Ho, !blen_app. lia. }
    rewrite Hl. unfold chunker_get_id. destruct Hh as (_ & _ & Hs & _). rewrite Hs.
    eapply wp_mono; [exact (Hcb _ _ _ _ Hpc HI1)| |auto]. intros [ok a] w' [_ H2]. cbn [fst snd] in *.
    destruct ok; [|exact H2]. exists (done ++ [cur]), t'. split; [|split; [|split; [exact Hz|exact H2]]].
    + rewrite concat_app. cbn [concat]. rewrite app_nil_r, completes_app by assumption. f_equal. now apply chunks_last.
    + rewrite concat_app. cbn [concat]. rewrite app_nil_r, <- app_assoc. exact Hf.
Qed.
End Rule.
