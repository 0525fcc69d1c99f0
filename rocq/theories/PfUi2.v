(** The progress display of patchdd (C50). *)
From Verif Require Import Base Lib SpecBasic Utils PfFrame PfLocal PfReadonly PfUi SpecRun Ui Patchdd SpecPatch.
From Coq Require Import Sorting.Sorted.
Ltac Zify.zify_post_hook ::= Z.div_mod_to_equations.
Local Open Scope N_scope.

Definition block_pct (size : N) (i : nat) : N := 100 * N.min (1048576 * N.of_nat i) size / size.
Lemma blocks_display size k : 0 < size -> (k <= N.to_nat (blocks size))%nat -> good_display (N.to_nat (blocks size)) (map (block_pct size) (seq 1 k)).
Proof.
  intros Hs Hk. split; [now rewrite map_length, seq_length|]. split.
  - apply Forall_forall. intros p Hp. apply in_map_iff in Hp as (i & <- & Hi). unfold block_pct. apply N.div_le_upper_bound; lia.
  - split.
    + clear Hk. generalize 1%nat. induction k as [|k IH]; intros a; cbn [seq map]; [constructor|]. constructor; [apply IH|]. apply Forall_forall. intros p Hp. apply in_map_iff in Hp as (i & <- & Hi). apply in_seq in Hi.
      unfold block_pct. apply N.div_le_mono; lia.
    + intros i p Hi.
      assert (Hlt : (i < k)%nat) by (rewrite <- (seq_length k 1), <- (map_length (block_pct size)); apply nth_error_Some; congruence).
      rewrite (map_nth_error (block_pct size) i (seq 1 k) (d := S i)) in Hi.
      2:{ rewrite (nth_error_nth' _ O) by (now rewrite seq_length). rewrite seq_nth by exact Hlt. reflexivity. }
      injection Hi as <-. unfold block_pct. set (m := N.min (1048576 * N.of_nat (S i)) size). split.
      * intros H. assert (100 * size <= 100 * m). { replace (100 * size) with (size * (100 * m / size)) by (rewrite H; lia). apply N.mul_div_le. lia. }
        assert (m = size) by lia. unfold blocks in *. lia.
      * intros H. assert (m = size) as ->; [|apply N.div_mul; lia]. unfold m, blocks in *. lia.
Qed.
Section PatchShown.
Variables (E : env) (src dst : nat) (size : N).
Hypothesis (H0 : 0 < size) (Hs : size <= 184467440737095516).
Definition upto (watch : bool) (j : nat) (w w' : world) : Prop :=
  exists k, (j + k <= N.to_nat (blocks size))%nat /\ shows dst (if watch then map (block_pct size) (seq (S j) k) else []) w w'.
Definition whole (watch : bool) (j : nat) (w w' : world) : Prop :=
  shows dst (if watch then map (block_pct size) (seq (S j) (N.to_nat (blocks size) - j)) else []) w w'.
Notation qs := (quiet (eq dst) silent).
Lemma shown_patch : forall fuel j skp w, N.of_nat j <= blocks size ->
  wp (patch_loop E fuel src dst size (N.min (1048576 * N.of_nat j) size) skp)
     (fun r w' => upto (e_interactive E) j w w' /\ (r <> None -> whole (e_interactive E) j w w')) (fun _ w' => upto (e_interactive E) j w w') w.
Proof.
  induction fuel as [|fuel IH]; intros j skp w Hj;
  (assert (Stop : forall w', qs w w' -> upto (e_interactive E) j w w') by (intros w' Q; exists O; split; [lia|]; cbn [seq map]; destruct (e_interactive E); apply shows_quiet, Q)).
  { apply wp_halt, Stop, quiet_refl. }
  assert (No : forall w', qs w w' -> upto (e_interactive E) j w w' /\ (@None N <> None -> whole (e_interactive E) j w w')) by (intros w' Q; split; [now apply Stop|contradiction]).
  cbn [patch_loop]. set (off := N.min (1048576 * N.of_nat j) size). destruct (N.leb_spec size off) as [Hle|Hlt].
  { apply wp_ret. split; [apply Stop, quiet_refl|]. intros _. unfold whole. replace (N.to_nat (blocks size) - j)%nat with O by (unfold blocks in *; lia).
    cbn [seq map]. destruct (e_interactive E); apply shows_quiet, quiet_refl. }
  assert (Eoff : off = 1048576 * N.of_nat j) by lia. change TRANSFER_SIZE with 1048576.
  assert (Next : off + N.min (size - off) 1048576 = N.min (1048576 * N.of_nat (S j)) size) by lia. rewrite Next.
  assert (Hj2 : N.of_nat (S j) <= blocks size) by (unfold blocks; lia).
  assert (GT : forall A (m : M A), gives (fun _ => True) m) by (intros A m w0; destruct (m w0) as [[]]; exact Logic.I).
  apply wp_bind. eapply wp_mono; [apply (gives_wp _ (fun _ => True) (eq dst) silent _ w); [apply GT|apply frame_preadall]| |intros bd w1 Q; now apply Stop].
  intros [ok a] w1 (Q1 & _). destruct (negb ok); [apply wp_ret, No, Q1|].
  apply wp_bind. eapply wp_mono; [apply (gives_wp _ (fun _ => True) (eq dst) silent _ w1); [apply GT|apply frame_preadall]| |intros bd w2 Q; apply Stop; eapply quiet_trans; eauto].
  intros [ok2 b] w2 (Q2 & _). destruct (negb ok2); [apply wp_ret, No; eapply quiet_trans; eauto|].
  apply wp_bind. eapply wp_mono; [apply (gives_wp _ (fun _ => True) (eq dst) silent _ w2); [apply GT|apply frame_pwriteall; [reflexivity|intros; exact Logic.I]]| |intros bd w3 Q; apply Stop; eapply quiet_trans; [eapply quiet_trans; eauto|exact Q]].
  intros ok3 w3 (Q3 & _). assert (Q : qs w w3) by (eapply quiet_trans; [eapply quiet_trans; eauto|exact Q3]). destruct (negb ok3); [apply wp_ret, No, Q|].
  apply shows_quiet in Q. unfold upto, whole in *. destruct (e_interactive E).
  - apply wp_bind, wp_trace.
    assert (Sh : shows dst [block_pct size (S j)] w (add_trace (TProgress (patchdd_percent (N.min (1048576 * N.of_nat (S j)) size) size)) w3)).
    { change [block_pct size (S j)] with ([] ++ [block_pct size (S j)]). eapply shows_trans; [exact Q|]. split; [auto|].
      exists [TProgress (patchdd_percent (N.min (1048576 * N.of_nat (S j)) size) size)]. split; [reflexivity|]. unfold shown. cbn [rev app flat_map]. rewrite patchdd_percent_small by lia. reflexivity. }
    assert (K : forall k w4, shows dst (map (block_pct size) (seq (S (S j)) k)) (add_trace (TProgress (patchdd_percent (N.min (1048576 * N.of_nat (S j)) size) size)) w3) w4 -> shows dst (map (block_pct size) (seq (S j) (S k))) w w4).
    { intros k w4 K2. cbn [seq map]. change (?x :: ?l) with ([x] ++ l). eapply shows_trans; eauto. }
    eapply wp_mono; [apply IH; exact Hj2| |]; cbv beta.
    + intros r w4 ((k & A & B) & C). split; [exists (S k); split; [lia|auto]|]. intros Hr. replace (N.to_nat (blocks size) - j)%nat with (S (N.to_nat (blocks size) - S j)) by lia. apply K. auto.
    + intros bd w4 (k & A & B). exists (S k). split; [lia|auto].
  - apply wp_bind, wp_ret. eapply wp_mono; [apply IH; exact Hj2| |]; cbv beta.
    + intros r w4 ((k & A & B) & C). pose proof (shows_trans _ _ _ _ _ _ Q B) as D. split; [exists k; split; [lia|exact D]|]. intros _. exact D.
    + intros bd w4 (k & A & B). exists k. split; [lia|]. exact (shows_trans _ _ _ _ _ _ Q B).
Qed.
End PatchShown.

Lemma patchdd_display E argv w src : src_of E argv = Some src -> let size := blen (w_files w src) in size <= 184467440737095516 ->
  exists tr, run_trace w (snd (patchdd_main E argv w)) tr /\ good_display (N.to_nat (blocks size)) (shown tr) /\ (e_interactive E = false -> shown tr = []) /\
    (fst (patchdd_main E argv w) = Ok 0 -> e_interactive E = true -> length (shown tr) = N.to_nat (blocks size)).
Proof.
  intros Hsrc size Hsz.
  assert (G0 : forall n, good_display n []). { intros n. split; [cbn; lia|]. split; [constructor|]. split; [constructor|]. intros [|i] x X; discriminate. }
  set (post := fun (o : option N) w' => exists tr, run_trace w w' tr /\ good_display (N.to_nat (blocks size)) (shown tr) /\ (e_interactive E = false -> shown tr = []) /\
    (o = Some 0 -> e_interactive E = true -> length (shown tr) = N.to_nat (blocks size))).
  assert (Refuse : post (Some 1) w). { exists []. split; [reflexivity|]. split; [apply G0|]. split; [reflexivity|discriminate]. }
  enough (W : wp (patchdd_main E argv) (fun c w' => post (Some c) w') (fun _ w' => post None w') w).
  { unfold wp in W. destruct (patchdd_main E argv w) as [[c| | |] w']; cbn [fst snd]; destruct W as (tr & A & B & C & D); exists tr; split; auto; split; auto; split; auto; try discriminate. intros H. injection H as ->. auto. }
  unfold patchdd_main. destruct argv as [|a0 [|sp [|dp rest]]]; try (apply wp_ret, Refuse). change (e_open E sp = Some src) in Hsrc.
  destruct (_ || _)%bool; [apply wp_ret, Refuse|]. rewrite Hsrc. destruct (e_open_rw E dp) as [dst|]; [|apply wp_ret, Refuse].
  apply wp_bind. unfold fd_size at 1. unfold wp at 1. 
  assert (Go : forall dsz, wp (if dsz <? size then ret 1 else r <- patch_loop E (S (N.to_nat size)) src dst size 0 0 ;; match r with None => ret 1 | Some _ => ok <- fsync dst ;; ret (if (ok : bool) then 0 else 1) end) (fun c w' => post (Some c) w') (fun _ w' => post None w') w).
  { intros dsz. destruct (dsz <? size); [apply wp_ret, Refuse|]. apply wp_bind.
    assert (L : wp (patch_loop E (S (N.to_nat size)) src dst size 0 0) (fun r w' => upto dst size (e_interactive E) 0 w w' /\ (r <> None -> whole dst size (e_interactive E) 0 w w')) (fun _ w' => upto dst size (e_interactive E) 0 w w') w).
    { destruct (N.eq_dec size 0) as [->|Hnz].
      - cbn [patch_loop N.leb]. apply wp_ret. assert (S0 : shows dst [] w w) by (apply shows_quiet, quiet_refl). split; [exists O|intros _; unfold whole; change (N.to_nat (blocks 0)) with O]; cbn [seq map Nat.sub]; [split; [lia|]|]; destruct (e_interactive E); exact S0.
      - replace (patch_loop E (S (N.to_nat size)) src dst size 0 0) with (patch_loop E (S (N.to_nat size)) src dst size (N.min (1048576 * N.of_nat 0) size) 0) by (f_equal; lia). apply shown_patch; lia. }
    assert (Up : forall w', upto dst size (e_interactive E) 0 w w' -> forall o, o <> Some 0 -> post o w').
    { intros w' (k & A & _ & tr & B & C) o Ho. exists tr. split; [exact B|]. rewrite C. split.
      - destruct (e_interactive E); [|apply G0]. destruct (N.eq_dec size 0) as [Z|Hnz]; [rewrite Z in *; change (N.to_nat (blocks 0)) with O in A; replace k with O by lia; apply G0|]. apply blocks_display; lia.
      - split; [intros ->; reflexivity|contradiction]. }
    eapply wp_mono; [exact L| |]; cbv beta; [|intros bd w' U; now apply Up].
    intros [s|] w' (U & Wh); [|apply wp_ret, Up; auto; discriminate]. specialize (Wh ltac:(discriminate)).
    assert (Fin : forall w2 tr0, w_files w2 = w_files w' -> w_trace w2 = tr0 ++ w_trace w' -> shown tr0 = [] -> forall o, post o w2).
    { intros w2 tr0 Qf Qt Q0 o. assert (Sq : shows dst [] w' w2) by (split; [intros j _; now rewrite Qf|exists tr0; auto]).
      destruct (shows_trans _ _ _ _ _ _ Wh Sq) as (_ & tr & B & C). rewrite app_nil_r, Nat.sub_0_r in C. exists tr. split; [exact B|]. rewrite C. split.
      - destruct (e_interactive E); [|apply G0]. destruct (N.eq_dec size 0) as [->|Hnz]; [apply G0|]. apply blocks_display; lia.
      - split; [intros ->; reflexivity|]. intros _ ->. now rewrite map_length, seq_length. }
    apply wp_bind. unfold fsync, wp at 1. destruct (w_io w') as [|e ev]; [apply (Fin w' []); reflexivity|].
    destruct e; apply wp_ret; [apply (Fin _ [TSync dst])|apply (Fin _ [])|apply (Fin _ [])|apply (Fin _ [TSync dst])]; reflexivity. }
  destruct (e_kind E src); [| |apply wp_ret, Refuse]; fold size; apply wp_bind; unfold fd_size at 1; unfold wp at 1; (destruct (e_kind E dst); [apply Go|apply Go|apply wp_ret, Refuse]).
Qed.
