(** The incremental chunker computes the boundaries of the specification (C14-C18). *)
From Verif Require Import Base Lib Utils Discr Chunker SpecBasic SpecChunker PfUtils PfBasic PfBuz.
Ltac Zify.zify_post_hook ::= Z.div_mod_to_equations.
Local Open Scope nat_scope.

Lemma find_seq_some (f : nat -> bool) n : forall a m, find f (seq a n) = Some m <->
  (a <= m < a + n /\ f m = true /\ forall j, a <= j < m -> f j = false).
Proof.
  induction n as [|n IH]; intros a m; cbn [seq find].
  - split; [discriminate|lia].
  - destruct (f a) eqn:F.
    + split.
      * intros H; injection H as <-. split; [lia|split; [exact F|intros; lia]].
      * intros (L & Fm & J). destruct (Nat.eq_dec a m) as [->|Ne]; [reflexivity|].
        rewrite J in F by lia. discriminate.
    + rewrite IH. split; intros (L & Fm & J).
      * split; [lia|split; [exact Fm|]]. intros j Hj. destruct (Nat.eq_dec j a) as [->|]; [exact F|apply J; lia].
      * assert (a <> m) by congruence. split; [lia|split; [exact Fm|]]. intros j Hj. apply J. lia.
Qed.
Lemma find_seq_none (f : nat -> bool) n : forall a, find f (seq a n) = None <->
  (forall j, a <= j < a + n -> f j = false).
Proof.
  induction n as [|n IH]; intros a; cbn [seq find].
  - split; [intros; lia|reflexivity].
  - destruct (f a) eqn:F.
    + split; [discriminate|]. intros H. rewrite H in F by lia. discriminate.
    + rewrite IH. split; intros H j Hj; [destruct (Nat.eq_dec j a) as [->|]; [exact F|]|]; apply H; lia.
Qed.

Section Cut.
Variables (p : params) (D : N).
Notation cut := (cut_here p D).

Lemma first_cut_some d n : first_cut p D d = Some n <->
  (48 <= n <= length d /\ cut (firstn n d) = true /\ forall j, 48 <= j < n -> cut (firstn j d) = false).
Proof.
  unfold first_cut. rewrite find_seq_some. split; intros (L & F & J); (split; [lia|auto]).
Qed.
Lemma first_cut_none d : first_cut p D d = None <->
  (forall j, 48 <= j <= length d -> cut (firstn j d) = false).
Proof.
  unfold first_cut. rewrite find_seq_none. split; intros H j Hj; apply H; lia.
Qed.

(** Boundaries only depend on what comes before them. *)
Lemma first_cut_app d e n : first_cut p D d = Some n -> first_cut p D (d ++ e) = Some n.
Proof.
  rewrite !first_cut_some. intros (L & F & J). rewrite app_length.
  split; [lia|]. split.
  - rewrite firstn_app_le by lia. exact F.
  - intros j Hj. rewrite firstn_app_le by lia. apply J, Hj.
Qed.
Lemma first_cut_firstn d n : first_cut p D d = Some n -> first_cut p D (firstn n d) = Some n.
Proof.
  rewrite !first_cut_some. intros (L & F & J). rewrite firstn_length_le by lia.
  split; [lia|]. split; [now rewrite firstn_firstn, Nat.min_id|].
  intros j Hj. rewrite firstn_firstn. replace (Nat.min j n) with j by lia. auto.
Qed.

Lemma chunks_n_fuel d : forall f, length d <= f -> chunks_n p D f d = chunks p D d.
Proof.
  unfold chunks. remember (length d) as n eqn:En. revert d En.
  induction n as [n IH] using lt_wf_ind. intros d En f Hf.
  destruct d as [|x d]; [subst n; destruct f; reflexivity|].
  destruct f as [|f]; [cbn in En; lia|]. destruct n as [|n]; [cbn in En; lia|].
  cbn [chunks_n]. destruct (first_cut p D (x :: d)) as [m|] eqn:F; [|reflexivity].
  apply first_cut_some in F. destruct F as (L & _ & _). f_equal.
  assert (Ls : length (skipn m (x :: d)) < S n) by (rewrite skipn_length; lia).
  rewrite (IH _ Ls _ eq_refl f) by lia.
  symmetry. apply (IH _ Ls _ eq_refl n). lia.
Qed.

Lemma chunks_nil : chunks p D [] = []. Proof. reflexivity. Qed.
Lemma chunks_step d n : first_cut p D d = Some n -> chunks p D d = firstn n d :: chunks p D (skipn n d).
Proof.
  intros F. pose proof F as F'. apply first_cut_some in F'. destruct F' as (L & _ & _).
  unfold chunks at 1. destruct d as [|x d]; [cbn in L; lia|].
  cbn [length chunks_n]. rewrite F. f_equal. apply chunks_n_fuel. rewrite skipn_length. cbn [length] in *. lia.
Qed.
Lemma chunks_last d : d <> [] -> first_cut p D d = None -> chunks p D d = [d].
Proof. intros Hd F. destruct d as [|x d]; [congruence|]. unfold chunks. cbn [length chunks_n]. now rewrite F. Qed.

(** A complete chunk: the first boundary is at its end. *)
Definition complete (c : bytes) : Prop := first_cut p D c = Some (length c).
Definition open_end (d : bytes) : Prop := first_cut p D d = None.

Lemma complete_app c e : complete c -> chunks p D (c ++ e) = c :: chunks p D e.
Proof.
  intros H. rewrite (chunks_step (c ++ e) (length c)) by (apply first_cut_app, H).
  now rewrite firstn_exact, skipn_exact.
Qed.
Lemma completes_app l e : Forall complete l -> chunks p D (concat l ++ e) = l ++ chunks p D e.
Proof.
  induction 1 as [|c l Hc Hl IH]; [reflexivity|]. cbn [concat app]. rewrite <- app_assoc, complete_app by assumption.
  now rewrite IH.
Qed.
Lemma complete_nonempty c : complete c -> c <> [].
Proof. intros H E. subst c. apply first_cut_some in H. cbn in H. lia. Qed.

(** All chunks but the last are complete, the last one is complete or open. *)
Lemma chunks_shape d : exists l t, chunks p D d = l ++ t /\ Forall complete l /\
   concat l ++ concat t = d /\ (t = [] \/ exists c, t = [c] /\ c <> [] /\ open_end c).
Proof.
  remember (length d) as n eqn:En. revert d En. induction n as [n IH] using lt_wf_ind. intros d En.
  destruct d as [|x d].
  - exists [], []. repeat split; auto.
  - destruct (first_cut p D (x :: d)) as [m|] eqn:F.
    + pose proof F as F'. apply first_cut_some in F'. destruct F' as (L & _ & _).
      destruct (IH (length (skipn m (x :: d)))) with (d := skipn m (x :: d)) as (l & t & E & C & Q & T);
        [rewrite skipn_length; lia|reflexivity|].
      exists (firstn m (x :: d) :: l), t. rewrite (chunks_step _ _ F), E. split; [reflexivity|].
      split; [constructor; [|exact C]|split; [|exact T]].
      * unfold complete. rewrite firstn_length_le by lia. apply first_cut_firstn, F.
      * cbn [concat]. rewrite <- app_assoc, Q. apply firstn_skipn.
    + exists [], [x :: d]. rewrite (chunks_last _) by (congruence || assumption).
      cbn. rewrite app_nil_r. repeat split; auto. right. exists (x :: d). repeat split; [congruence|exact F].
Qed.

Lemma chunks_concat d : concat (chunks p D d) = d.
Proof. destruct (chunks_shape d) as (l & t & E & _ & Q & _). rewrite E, concat_app. exact Q. Qed.
Lemma chunks_nonempty d : Forall (fun c => c <> []) (chunks p D d).
Proof.
  destruct (chunks_shape d) as (l & t & E & C & _ & T). rewrite E. apply Forall_app. split.
  - eapply Forall_impl; [|exact C]. intros; now apply complete_nonempty.
  - destruct T as [->|(c & -> & Hc & _)]; auto.
Qed.

(** ** The state of the chunker after [d] *)
Definition ring (win d : bytes) : Prop :=
  length win = WIN /\ forall i, length d - 48 <= i < length d -> nth (i mod 48) win 0%N = nth i d 0%N.

Lemma length_upd_nth {A} i (x : A) l : length (upd_nth i x l) = length l.
Proof. revert i; induction l as [|y l IH]; intros [|i]; cbn; auto. Qed.
Lemma nth_upd_nth {A} i (x : A) l j d :
  nth j (upd_nth i x l) d = if (j =? i) && (i <? length l) then x else nth j l d.
Proof.
  revert i j; induction l as [|y l IH]; intros i j.
  - destruct i, j; cbn; rewrite ?andb_false_r; reflexivity.
  - destruct i as [|i], j as [|j]; cbn [upd_nth nth length]; try reflexivity. rewrite IH. reflexivity.
Qed.

Lemma last48_length d : 48 <= length d -> length (last48 d) = 48.
Proof. intros H. unfold last48. rewrite skipn_length. lia. Qed.

Lemma last48_snoc d b : 48 <= length d ->
  exists w, last48 d = nth (length d - 48) d 0%N :: w /\ length w = 47 /\ last48 (d ++ [b]) = w ++ [b].
Proof.
  intros H. unfold last48. rewrite app_length. cbn [length].
  exists (skipn (S (length d - 48)) d).
  assert (G : forall (l : bytes) k, k < length l -> skipn k l = nth k l 0%N :: skipn (S k) l).
  { induction l as [|y l IH]; intros k Hk; [cbn in Hk; lia|]. destruct k as [|k]; [reflexivity|].
    cbn [skipn nth]. rewrite IH by (cbn in Hk; lia). reflexivity. }
  split; [apply G; lia|]. split; [rewrite skipn_length; lia|].
  rewrite skipn_app_le by lia. f_equal. f_equal. lia.
Qed.

Lemma ring_snoc win d b : 48 <= length d -> ring win d ->
  nth (length d mod 48) win 0%N = nth (length d - 48) d 0%N /\
  ring (upd_nth (length d mod 48) b win) (d ++ [b]).
Proof.
  intros H [L R]. split.
  - rewrite <- R by lia. f_equal. lia.
  - split; [now rewrite length_upd_nth|]. intros i Hi. rewrite app_length in Hi. cbn [length] in Hi.
    rewrite nth_upd_nth, L. change WIN with 48.
    replace (length d mod 48 <? 48) with true by lia. rewrite andb_true_r.
    destruct (Nat.eq_dec i (length d)) as [->|Ne].
    + rewrite Nat.eqb_refl. rewrite app_nth2 by lia. now rewrite Nat.sub_diag.
    + replace (i mod 48 =? length d mod 48) with false by lia.
      rewrite app_nth1 by lia. apply R. lia.
Qed.

Lemma ring_full d : length d = 48 -> ring d d.
Proof. intros H. split; [exact H|]. intros i Hi. rewrite Nat.mod_small by lia. reflexivity. Qed.

(** The test of the code is the test of the specification. *)
Variable disc : N.
Hypothesis Hdisc : disc_of p D /\ disc = D.
Local Opaque discriminator_from_avg.

Lemma default_disc_ok : discriminator_from_avg AVG_DEFAULT = Some default_disc.
Proof. vm_compute. reflexivity. Qed.

Lemma shall_break_cut d :
  shall_break p disc (buzhash (last48 d)) (blen d) = Some (cut d).
Proof.
  destruct Hdisc as [[Hd H0] ->]. unfold shall_break, cut_here.
  destruct (p_max p <=? blen d)%N; [reflexivity|]. cbn [orb].
  destruct (blen d <? p_min p)%N eqn:Emin.
  - now replace (p_min p <=? blen d)%N with false by lia.
  - replace (p_min p <=? blen d)%N with true by lia. cbn [andb].
    assert (G : (if (p_avg p =? AVG_DEFAULT)%N then default_disc else D) = D).
    { destruct (p_avg p =? AVG_DEFAULT)%N eqn:Ea; [|reflexivity].
      assert (Hp : p_avg p = AVG_DEFAULT) by lia. rewrite Hp, default_disc_ok in Hd. congruence. }
    rewrite G. replace (D =? 0)%N with false by lia. reflexivity.
Qed.

Lemma scan_loop_spec buf : forall d win n, 48 <= length d -> ring win d ->
  exists k brk win', k <= length buf /\
    scan_loop p disc (buzhash (last48 d)) (blen d) win (length d mod 48) buf n =
      Some (n + k, buzhash (last48 (d ++ firstn k buf)), blen (d ++ firstn k buf), win', brk) /\
    ring win' (d ++ firstn k buf) /\
    (if (brk : bool) then 0 < k /\ cut (d ++ firstn k buf) = true else k = length buf) /\
    (forall j, 0 < j <= k -> (brk = true -> j < k) -> cut (d ++ firstn j buf) = false).
Proof.
  induction buf as [|b buf IH]; intros d win n H R.
  - exists 0, false, win. cbn [scan_loop firstn length]. rewrite app_nil_r, Nat.add_0_r.
    repeat split; auto; try apply R. intros; lia.
  - cbn [scan_loop]. destruct (ring_snoc win d b H R) as [Hout R'].
    rewrite Hout. destruct (last48_snoc d b H) as (w & E1 & Lw & E2).
    assert (Eh : N.lxor (N.lxor (rol32 (buzhash (last48 d)) 1)
                 (rol32 (buz (nth (length d - 48) d 0%N)) (N.of_nat WIN))) (buz b)
               = buzhash (last48 (d ++ [b]))).
    { rewrite E2, E1. symmetry. apply buzhash_roll, Lw. }
    rewrite Eh.
    replace (blen d + 1)%N with (blen (d ++ [b])) by (rewrite blen_app; reflexivity).
    rewrite shall_break_cut.
    destruct (cut (d ++ [b])) eqn:Ec.
    + exists 1, true, (upd_nth (length d mod 48) b win). cbn [firstn length].
      split; [lia|]. split; [rewrite Nat.add_1_r; reflexivity|]. split; [exact R'|]. split; [split; [lia|exact Ec]|].
      intros j Hj Hb. specialize (Hb eq_refl). lia.
    + assert (Ei : (if S (length d mod 48) =? WIN then 0 else S (length d mod 48)) = length (d ++ [b]) mod 48).
      { rewrite app_length. cbn [length]. change WIN with 48.
        destruct (S (length d mod 48) =? 48) eqn:Q; lia. }
      rewrite Ei.
      destruct (IH (d ++ [b]) (upd_nth (length d mod 48) b win) (S n)) as (k & brk & win' & Lk & Es & Rk & Hb & Hj);
        [rewrite app_length; cbn; lia|exact R'|].
      rewrite <- app_assoc in Es, Rk, Hb. cbn [app] in Es, Rk, Hb.
      exists (S k), brk, win'. cbn [length firstn]. split; [lia|]. split; [|split; [exact Rk|split]].
      * rewrite Es. replace (S n + k) with (n + S k) by lia. reflexivity.
      * destruct brk; [split; [lia|tauto]|lia].
      * intros j Hj1 Hj2. destruct j as [|[|j]]; [lia|exact Ec|].
        cbn [firstn]. specialize (Hj (S j)). rewrite <- app_assoc in Hj. cbn [app firstn] in Hj.
        apply Hj; [lia|]. intros; lia.
Qed.

Definition holds (c : chunker) (d : bytes) : Prop :=
  c_params c = p /\ c_disc c = disc /\ c_sha c = d /\ c_size c = blen d /\ length (c_win c) = WIN /\
  (if length d <? 48
   then c_fill c = length d /\ c_h c = 0%N /\ firstn (length d) (c_win c) = d
   else c_fill c = 48 /\ c_h c = buzhash (last48 d) /\ ring (c_win c) d).

Lemma overlay_at_fill (l x : bytes) n : n <= length l -> length x + n <= length l ->
  length (overlay_at n x l) = length l /\ firstn (n + length x) (overlay_at n x l) = firstn n l ++ x.
Proof.
  intros H1 H2. unfold overlay_at, overlay. split.
  - rewrite !app_length, !skipn_length, firstn_length. lia.
  - rewrite firstn_app_ge by (rewrite firstn_length; lia). rewrite firstn_length_le by lia. f_equal.
    rewrite firstn_app_ge by lia. replace (n + length x - n - length x) with 0 by lia.
    now rewrite firstn_O, app_nil_r.
Qed.

(** One call of chunker_scan on [buf], after [d] since the last boundary. *)
Lemma chunker_scan_spec c d buf : holds c d ->
  (forall j, 48 <= j < length d -> cut (firstn j d) = false) ->
  exists r c', chunker_scan c buf = Ok (r, c') /\
    match r with
    | Some n => n <= length buf /\ holds c' (d ++ firstn n buf) /\ complete (d ++ firstn n buf)
    | None => holds c' (d ++ buf) /\ open_end (d ++ buf)
    end.
Proof.
  intros (Hp & Hdc & Hs & Hz & Hwl & Hst) Hno. unfold chunker_scan.
  set (full := negb (Nat.ltb (c_fill c) WIN)).
  set (to_copy := if full then 0 else Nat.min (length buf) (WIN - c_fill c)).
  (* the state after filling the window *)
  assert (Hfull : full = negb (length d <? 48)).
  { unfold full. destruct (length d <? 48) eqn:El; destruct Hst as (Hf & _); rewrite Hf; [now change WIN with 48; rewrite El|reflexivity]. }
  destruct (length d <? 48) eqn:El; cbn [negb] in Hfull.
  - (* window not full yet *)
    destruct Hst as (Hf & Hh & Hw). rewrite Hfull.
    assert (Ht : to_copy = Nat.min (length buf) (48 - length d)) by (unfold to_copy; rewrite Hfull, Hf; reflexivity).
    clearbody to_copy. clear full Hfull. cbn [c_fill c_params c_disc c_h c_size c_win c_sha].
    rewrite Hf, Hs, Hz, Hh, Hp, Hdc.
    assert (Lw : length (firstn to_copy buf) = to_copy) by (rewrite firstn_length; lia).
    destruct (overlay_at_fill (c_win c) (firstn to_copy buf) (length d)) as [Wl Wf];
      [rewrite Hwl; change WIN with 48; lia|rewrite Lw, Hwl; change WIN with 48; lia|].
    rewrite Lw in Wf. rewrite Hw in Wf. rewrite Hwl in Wl.
    set (win := overlay_at (length d) (firstn to_copy buf) (c_win c)) in *. clearbody win.
    change WIN with 48 in *.
    destruct (length d + to_copy <? 48) eqn:E48.
    + (* still not full: everything was copied *)
      assert (Ea : to_copy = length buf) by lia.
      exists None. eexists. split; [reflexivity|].
      rewrite Ea, firstn_all in *. split.
      * unfold holds. cbn [c_fill c_params c_disc c_h c_size c_win c_sha]. rewrite app_length, E48.
        repeat split; auto. rewrite blen_app. reflexivity.
      * apply first_cut_none. intros j Hj. rewrite app_length in Hj. lia.
    + assert (E : length d + to_copy = 48) by lia.
      set (d' := d ++ firstn to_copy buf) in *.
      assert (Ld' : length d' = 48) by (unfold d'; rewrite app_length, Lw; exact E).
      rewrite E in Wf. rewrite firstn_all2 in Wf by lia. subst win.
      unfold chunker_shall_break. cbn [c_fill c_params c_disc c_h c_size c_win c_sha].
      replace (hash_window d' 48 0%N) with (buzhash (last48 d')).
      2:{ unfold last48. rewrite Ld'. cbn [Nat.sub skipn]. rewrite <- Ld' at 1. rewrite hash_window_spec. apply N.lxor_0_l. }
      replace (blen d + N.of_nat to_copy)%N with (blen d') by (unfold d'; rewrite blen_app; unfold blen at 2; now rewrite Lw).
      rewrite shall_break_cut. rewrite E.
      destruct (cut d') eqn:Ec.
      * exists (Some to_copy). eexists. split; [reflexivity|]. split; [lia|]. fold d'. split.
        -- unfold holds. cbn [c_fill c_params c_disc c_h c_size c_win c_sha]. rewrite Ld'. cbn [Nat.ltb Nat.leb].
           repeat split; auto. apply ring_full, Ld'.
        -- apply first_cut_some. rewrite Ld'. split; [lia|]. split; [rewrite firstn_all2 by lia; exact Ec|]. intros; lia.
      * destruct (scan_loop_spec (skipn to_copy buf) d' d' 0) as (k & brk & win' & Lk & Es & Rk & Hb & Hj);
          [lia|apply ring_full, Ld'|].
        replace (N.to_nat (blen d' mod 48)) with (length d' mod 48) by (unfold blen; lia).
        rewrite Es. cbn [Nat.add].
        assert (Hcat : d' ++ firstn k (skipn to_copy buf) = d ++ firstn (to_copy + k) buf).
        { unfold d'. rewrite <- app_assoc, <- firstn_skipn_add. reflexivity. }
        assert (Hh' : holds (mkChunker p disc (buzhash (last48 (d' ++ firstn k (skipn to_copy buf))))
            (blen (d' ++ firstn k (skipn to_copy buf))) 48 win' (d' ++ firstn k (skipn to_copy buf)))
            (d' ++ firstn k (skipn to_copy buf))).
        { unfold holds. cbn [c_fill c_params c_disc c_h c_size c_win c_sha]. rewrite app_length, Ld'.
          replace (48 + length (firstn k (skipn to_copy buf)) <? 48) with false by lia.
          repeat split; auto; apply Rk. }
        assert (Hpre : forall j, 48 <= j -> (brk = true -> j < 48 + k) -> j <= 48 + k ->
                  cut (firstn j (d' ++ firstn k (skipn to_copy buf))) = false).
        { intros j J1 J2 J3. rewrite firstn_app_ge by lia. rewrite Ld', firstn_firstn.
          replace (Nat.min (j - 48) k) with (j - 48) by lia.
          destruct (Nat.eq_dec j 48) as [->|]; [cbn [Nat.sub firstn]; rewrite app_nil_r; exact Ec|].
          apply Hj; [lia|]. intros; lia. }
        assert (Lt : length (firstn k (skipn to_copy buf)) = k) by (rewrite firstn_length; lia).
        destruct brk.
        -- exists (Some (to_copy + k)). eexists. split; [reflexivity|]. rewrite <- Hcat. split; [rewrite skipn_length in Lk; lia|].
           split; [exact Hh'|]. apply first_cut_some. rewrite app_length, Ld', Lt. split; [lia|].
           split; [rewrite firstn_all2 by (rewrite app_length; lia); apply Hb|]. intros j J. apply Hpre; [lia| |lia]. lia.
        -- exists None. eexists. split; [reflexivity|]. subst k.
           assert (Hc2 : d ++ buf = d' ++ firstn (length (skipn to_copy buf)) (skipn to_copy buf)).
           { rewrite Hcat. f_equal. rewrite firstn_all2; [reflexivity|]. rewrite skipn_length. lia. }
           rewrite Hc2. split; [exact Hh'|]. apply first_cut_none. intros j J. rewrite app_length, Ld', Lt in J.
           apply Hpre; [lia|discriminate|lia].
  - (* the window was full *)
    destruct Hst as (Hf & Hh & Hr). rewrite Hfull.
    assert (Ht : to_copy = 0) by (unfold to_copy; rewrite Hfull; reflexivity).
    rewrite Ht. clear to_copy Ht full Hfull. cbn [c_fill c_params c_disc c_h c_size c_win c_sha firstn skipn Nat.add].
    rewrite !Nat.add_0_r, Hf. change (Nat.ltb 48 WIN) with false. cbn [N.of_nat].
    rewrite app_nil_r, N.add_0_r. unfold chunker_shall_break. cbn [c_fill c_params c_disc c_h c_size c_win c_sha].
    rewrite Hp, Hdc, Hh, Hz, Hs. rewrite shall_break_cut.
    destruct (cut d) eqn:Ec.
    + exists (Some 0). eexists. split; [reflexivity|]. cbn [firstn]. rewrite app_nil_r. split; [lia|]. split.
      * unfold holds. cbn [c_fill c_params c_disc c_h c_size c_win c_sha]. rewrite El. repeat split; auto; apply Hr.
      * apply first_cut_some. split; [lia|]. split; [now rewrite firstn_all|exact Hno].
    + destruct (scan_loop_spec buf d (c_win c) 0) as (k & brk & win' & Lk & Es & Rk & Hb & Hj); [lia|exact Hr|].
      replace (N.to_nat (blen d mod 48)) with (length d mod 48) by (unfold blen; lia).
      rewrite Es. cbn [Nat.add].
      assert (Lt : length (firstn k buf) = k) by (rewrite firstn_length; lia).
      assert (Hh' : holds (mkChunker p disc (buzhash (last48 (d ++ firstn k buf))) (blen (d ++ firstn k buf)) 48 win' (d ++ firstn k buf)) (d ++ firstn k buf)).
      { unfold holds. cbn [c_fill c_params c_disc c_h c_size c_win c_sha]. rewrite app_length.
        replace (length d + length (firstn k buf) <? 48) with false by lia.
        repeat split; auto; apply Rk. }
      assert (Hpre : forall j, 48 <= j -> (brk = true -> j < length d + k) -> j <= length d + k -> cut (firstn j (d ++ firstn k buf)) = false).
      { intros j J1 J2 J3. destruct (le_lt_dec j (length d)) as [Le|Gt].
        - rewrite firstn_app_le by lia. destruct (Nat.eq_dec j (length d)) as [->|]; [now rewrite firstn_all|apply Hno; lia].
        - rewrite firstn_app_ge, firstn_firstn by lia. replace (Nat.min (j - length d) k) with (j - length d) by lia.
          apply Hj; [lia|]. lia. }
      destruct brk.
      * exists (Some k). eexists. split; [reflexivity|]. split; [lia|]. split; [exact Hh'|].
        apply first_cut_some. rewrite app_length, Lt. split; [lia|].
        split; [rewrite firstn_all2 by (rewrite app_length; lia); apply Hb|]. intros j J. apply Hpre; lia.
      * exists None. eexists. split; [reflexivity|]. subst k. rewrite firstn_all in *. split; [exact Hh'|].
        apply first_cut_none. intros j J. rewrite app_length in J. apply Hpre; [lia|discriminate|lia].
Qed.

Lemma holds_reset c d : holds c d -> holds (chunker_reset c) [].
Proof.
  intros (Hp & Hdc & _ & _ & Hw & _). unfold chunker_reset, holds.
  cbn [c_fill c_params c_disc c_h c_size c_win c_sha length Nat.ltb Nat.leb firstn]. repeat split; auto.
Qed.
End Cut.

Lemma chunker_init_spec p D : disc_of p D ->
  exists c, chunker_init p = Ok c /\ holds p D c [].
Proof.
  intros [Hd H0]. unfold chunker_init. rewrite Hd. eexists. split; [reflexivity|].
  unfold holds, chunker_reset. cbn [c_fill c_params c_disc c_h c_size c_win c_sha length Nat.ltb Nat.leb firstn].
  rewrite repeat_length. repeat split; auto.
Qed.
