(** What a terminal shows of the progress display (C95). *)
From Verif Require Import Base Lib SpecBasic SpecEnv Utils PfUtils Ui MainProg Patchdd SpecCaibx SpecMain SpecRun SpecPatch SpecTerm PfUi PfUi2 PfPatch.
Ltac Zify.zify_post_hook ::= Z.div_mod_to_equations.
Local Open Scope N_scope.

Definition plain (c : N) : Prop := c <> 27 /\ c <> 10.
Lemma type_app t a b : type_in t (a ++ b) = type_in (type_in t a) b.
Proof. apply fold_left_app. Qed.
Lemma key_plain d line col c : plain c -> key_in (mkTerm d line col Plain) c = mkTerm d (put_cell line col c) (S col) Plain.
Proof. intros (A & B). unfold key_in. cbn [tm_mode tm_done tm_line tm_col]. apply N.eqb_neq in A, B. now rewrite A, B. Qed.
Lemma put_cell_at a line c : put_cell (a ++ line) (length a) c = (a ++ [c]) ++ skipn 1 line.
Proof.
  unfold put_cell. rewrite app_length. replace (length a - (length a + length line))%nat with 0%nat by lia. cbn [repeat]. rewrite app_nil_r, firstn_exact, <- app_assoc. f_equal. cbn [app]. f_equal.
  rewrite skipn_app. rewrite skipn_all2 by lia. replace (S (length a) - length a)%nat with 1%nat by lia. reflexivity.
Qed.
Lemma type_plain d : forall s a line, Forall plain s -> type_in (mkTerm d (a ++ line) (length a) Plain) s = mkTerm d ((a ++ s) ++ skipn (length s) line) (length (a ++ s)) Plain.
Proof.
  induction s as [|c s IH]; intros a line H; [cbn [type_in fold_left length skipn]; now rewrite app_nil_r|]. unfold type_in. cbn [fold_left]. rewrite key_plain by exact (Forall_inv H). rewrite put_cell_at.
  replace (S (length a)) with (length (a ++ [c])) by (rewrite app_length; cbn; lia). fold (type_in (mkTerm d ((a ++ [c]) ++ skipn 1 line) (length (a ++ [c])) Plain) s). rewrite (IH (a ++ [c]) (skipn 1 line) (Forall_inv_tail H)). replace ((a ++ [c]) ++ s) with (a ++ c :: s) by (now rewrite <- app_assoc). f_equal. f_equal. cbn [length]. destruct line; cbn [skipn]; rewrite ?skipn_nil; reflexivity.
Qed.
Lemma type_over d line col s : Forall plain s -> (length line <= length s)%nat -> type_in (mkTerm d line col Plain) ([27] ++ bs "[0G" ++ s) = mkTerm d s (length s) Plain.
Proof.
  intros H L. rewrite !type_app. change (type_in (type_in (mkTerm d line col Plain) [27]) (bs "[0G")) with (mkTerm d ([] ++ line) (length (@nil N)) Plain). rewrite type_plain by exact H. cbn [app]. rewrite skipn_all2 by lia. now rewrite app_nil_r.
Qed.

Lemma dec3_text p : p < 256 -> number_text p (pad3 (dec3 p)).
Proof.
  intros Hp. unfold dec3, pad3. destruct (N.ltb_spec p 10); [|destruct (N.ltb_spec p 100)]; (eexists; split; [reflexivity|]; cbn [length]; split; [lia|]).
  - split; [constructor; [lia|constructor]|]. split; [unfold value_of; cbn [fold_left]; lia|]. cbn [hd]. intros X. now rewrite X.
  - split; [repeat (constructor; [lia|]); constructor|]. split; [unfold value_of; cbn [fold_left]; lia|]. cbn [hd]. intros X. lia.
  - assert (A1 : p / 10 mod 10 < 10) by (apply N.mod_lt; lia). assert (A2 : p mod 10 < 10) by (apply N.mod_lt; lia).
    assert (A3 : p = 10 * (p / 10) + p mod 10) by (apply N.div_mod; lia). assert (A4 : p / 10 = 10 * (p / 10 / 10) + p / 10 mod 10) by (apply N.div_mod; lia).
    rewrite N.div_div in A4 by lia. change (10 * 10) with 100 in A4. generalize dependent (p / 10 mod 10). generalize dependent (p mod 10). generalize dependent (p / 10). generalize dependent (p / 100). intros x y z Hz Y t Ht T.
    split; [repeat (constructor; [lia|]); constructor|]. split; [unfold value_of; cbn [fold_left]; lia|]. cbn [hd]. intros X. lia.
Qed.
Lemma number_width p t : number_text p t -> length t = 3%nat /\ Forall plain t.
Proof.
  intros (ds & -> & L & H & _). split; [rewrite app_length, repeat_length; lia|]. apply Forall_app. split.
  - apply Forall_forall. intros c Hc. apply repeat_spec in Hc. subst. split; discriminate.
  - eapply Forall_impl; [|exact H]. intros c Hc. cbn beta in Hc. split; lia.
Qed.
Lemma bar_width p b : bar_of p b -> length b = 60%nat /\ Forall plain b.
Proof.
  intros (k & -> & L & _). split; [rewrite app_length, !repeat_length; lia|]. apply Forall_app. split; apply Forall_forall; intros c Hc; apply repeat_spec in Hc; subst; split; discriminate.
Qed.
Lemma spin_at s : exists c, nth (N.to_nat (s mod 5)) spinner 0 = c /\ In c spin_chars.
Proof.
  eexists. split; [reflexivity|]. assert (H : s mod 5 < 5) by (apply N.mod_lt; lia). unfold spin_chars. destruct (s mod 5) as [|[[p|p|]|[p|[p|p|]|]|]]; try lia; vm_compute; auto 8.
Qed.
Lemma line_width c p t : In c spin_chars -> progress_line c p t -> length t = 71%nat /\ Forall plain t.
Proof.
  intros Hc (b & n & Hb & Hn & ->). destruct (bar_width _ _ Hb) as (B1 & B2). destruct (number_width _ _ Hn) as (N1 & N2). rewrite !app_length, B1, N1. split; [reflexivity|].
  assert (Cc : plain c). { unfold spin_chars in Hc. cbn in Hc. destruct Hc as [<-|[<-|[<-|[<-|[]]]]]; split; discriminate. }
  repeat (apply Forall_app; split); try assumption; repeat constructor; try discriminate; apply Cc.
Qed.
(** One step. *)
Lemma show_line p s : p < 256 -> exists c line, In c spin_chars /\ progress_line c p line /\ c = nth (N.to_nat (s mod 5)) spinner 0 /\
  fst (show_progress p s) = [27] ++ bs "[0G" ++ line ++ (if p =? 100 then [10] else []).
Proof.
  intros Hp. destruct (spin_at s) as (c & E & Hc). exists c. eexists. split; [exact Hc|]. split; [|split; [now symmetry|]].
  - exists (progress_bar p), (pad3 (dec3 p)). split; [now apply progress_bar_spec|]. split; [now apply dec3_text|]. reflexivity.
  - unfold show_progress. cbn [fst]. rewrite E. change (bs "[0G[") with (bs "[0G" ++ bs "["). now rewrite <- !app_assoc.
Qed.
Definition inline (t : term) : Prop := tm_mode t = Plain /\ (length (tm_line t) <= 71)%nat.
Lemma show_step p s t : p < 256 -> inline t -> exists c line, In c spin_chars /\ progress_line c p line /\
  type_in t (fst (show_progress p s)) = (if p =? 100 then mkTerm (tm_done t ++ [line]) [] 0 Plain else mkTerm (tm_done t) line 71 Plain).
Proof.
  intros Hp (M & L). destruct (show_line p s Hp) as (c & line & Hc & Hl & _ & ->). destruct (line_width _ _ _ Hc Hl) as (W & P). exists c, line. split; [exact Hc|]. split; [exact Hl|].
  destruct t as [d l col m]. cbn [tm_mode tm_line tm_done] in *. subst m. rewrite !app_assoc, type_app, <- !app_assoc, type_over by (auto; lia). destruct (p =? 100); cbn [type_in fold_left]; [reflexivity|now rewrite W].
Qed.
Lemma show_plain : forall l s t, Forall (fun p => p < 256 /\ p <> 100) l -> inline t ->
  let t' := type_in t (printed s l) in inline t' /\ tm_done t' = tm_done t /\ (l <> [] -> exists c line, In c spin_chars /\ progress_line c (last l 0) line /\ tm_line t' = line) /\ (l = [] -> t' = t).
Proof.
  induction l as [|p l IH]; intros s t H Ht; cbn [printed].
  - cbn [type_in fold_left]. cbv zeta. split; [exact Ht|]. split; [reflexivity|]. split; [congruence|reflexivity].
  - destruct (Forall_inv H) as (P1 & P2). destruct (show_step p s t P1 Ht) as (c & line & Hc & Hl & X). apply N.eqb_neq in P2. rewrite P2 in X. rewrite type_app, X.
    destruct (line_width _ _ _ Hc Hl) as (W & _). specialize (IH (snd (show_progress p s)) (mkTerm (tm_done t) line 71 Plain) (Forall_inv_tail H)). destruct IH as (I1 & I2 & I3 & I4); [split; [reflexivity|cbn; lia]|].
    cbv zeta. split; [exact I1|]. split; [exact I2|]. split; [|discriminate]. intros _. destruct l as [|q l]; [|exact (I3 ltac:(discriminate))]. rewrite (I4 eq_refl). exists c, line. auto.
Qed.
Lemma printed_app : forall a b s, exists s', printed s (a ++ b) = printed s a ++ printed s' b.
Proof.
  induction a as [|p a IH]; intros b s; [exists s; reflexivity|]. cbn [app printed]. destruct (IH b (snd (show_progress p s))) as (s' & ->). exists s'. now rewrite app_assoc.
Qed.
Lemma screen_good n l s : good_display n l -> screen_shows (type_in fresh (printed s l)) l.
Proof.
  intros (G1 & G2 & _ & G4). destruct (list_eq_dec N.eq_dec l []) as [->|Hne]; [left; auto|]. right.
  destruct (exists_last Hne) as (l' & p & ->). exists l', p.
  assert (Fr : inline fresh) by (split; [reflexivity|cbn; lia]).
  assert (H' : Forall (fun q => q < 256 /\ q <> 100) l').
  { apply Forall_forall. intros q Hq. apply In_nth_error in Hq as (i & Hi). assert (Li : (i < length l')%nat) by (apply nth_error_Some; congruence).
    assert (Hi2 : nth_error (l' ++ [p]) i = Some q) by (rewrite nth_error_app1; assumption). rewrite Forall_forall in G2. pose proof (G2 q (nth_error_In _ _ Hi2)).
    split; [lia|]. intros X. apply (G4 i q Hi2) in X. rewrite app_length in G1. cbn in G1. lia. }
  assert (Hp : p < 256). { rewrite Forall_forall in G2. pose proof (G2 p ltac:(apply in_or_app; right; now left)). lia. }
  destruct (printed_app l' [p] s) as (s' & ->). rewrite type_app. destruct (show_plain l' s fresh H' Fr) as (I1 & I2 & _). cbn [printed]. rewrite app_nil_r.
  destruct (show_step p s' _ Hp I1) as (c & line & Hc & Hl & ->). exists c, line. split; [reflexivity|]. split; [exact Hc|]. split; [exact Hl|]. rewrite I2.
  destruct (N.eqb_spec p 100); cbn; split; auto.
Qed.

(** The spinner. *)
Lemma spin_spec p s : p < 256 -> p <> 100 -> spin_of p s = nth (N.to_nat (s mod 5)) spinner 0.
Proof.
  intros Hp Hn. destruct (show_line p s Hp) as (c & line & Hc & Hl & <- & E1). unfold spin_of.
  destruct (line_width _ _ _ Hc Hl) as (W & P). rewrite E1. apply N.eqb_neq in Hn. rewrite Hn, app_nil_r, firstn_app. cbn [length app]. change (70 - 1)%nat with 69%nat. rewrite firstn_app. change (length (bs "[0G")) with 3%nat.
  change (firstn 70 [27]) with [27]. change (firstn 69 (bs "[0G")) with (bs "[0G"). change (69 - 3)%nat with 66%nat.
  assert (Pf : Forall plain (firstn 66 line)) by (apply Forall_forall; intros x Hx; rewrite Forall_forall in P; apply P; rewrite <- (firstn_skipn 66 line); apply in_or_app; now left).
  pose proof (type_over [] [] 0 (firstn 66 line) Pf ltac:(cbn; lia)) as T. change fresh with (mkTerm [] [] 0 Plain). rewrite T. cbn [tm_line]. destruct Hl as (b & n & _ & _ & ->). reflexivity.
Qed.
Lemma spin_same p q s : p < 256 -> p <> 100 -> q < 256 -> q <> 100 -> s < 4294967295 -> (spin_of p s = spin_of q (snd (show_progress p s)) <-> s mod 5 = 3).
Proof.
  intros P1 P2 Q1 Q2 Hs. rewrite !spin_spec by assumption. cbn [show_progress snd]. change M32 with 4294967296. rewrite (N.mod_small (s + 1)) by lia.
  assert (H : s mod 5 < 5) by (apply N.mod_lt; lia). assert (H2 : (s + 1) mod 5 = if s mod 5 =? 4 then 0 else s mod 5 + 1). { destruct (N.eqb_spec (s mod 5) 4); lia. }
  rewrite H2. destruct (s mod 5) as [|[[r|r|]|[r|[r|r|]|]|]]; try lia; (split; intros X; vm_compute in X |- *; congruence).
Qed.
Lemma spin_repeats : exists p s, p < 100 /\ s < 2 ^ 32 /\ spin_of p s = spin_of p (snd (show_progress p s)).
Proof. exists 10, 3. vm_compute. auto. Qed.

Lemma screen_run E argv w ino p n : sane E argv w -> e_open E (cmd_index argv) = Some ino -> valid_index (w_files w ino) p n -> n <= 42949672 ->
  exists tr, run_trace w (snd (main E argv w)) tr /\ screen_shows (type_in fresh (printed 0 (shown tr))) (shown tr) /\
    (fst (main E argv w) = Ok 0 -> e_interactive E = true -> good_index E argv w -> 0 < n -> exists line c, progress_line c 100 line /\ tm_done (type_in fresh (printed 0 (shown tr))) = [line]).
Proof.
  intros HS Ho HV Hn. destruct (display_run E argv w ino p n HS Ho HV Hn) as (tr & T & G & _ & F). exists tr. split; [exact T|]. pose proof (screen_good _ _ 0 G) as Sc. split; [exact Sc|].
  intros X1 X2 X3 X4. specialize (F X1 X2 X3). destruct Sc as [(Z & _)|(l' & q & c & line & Z & Hc & Hl & Q & _)]; [rewrite Z in F; cbn in F; lia|].
  assert (q = 100) as ->. { destruct G as (_ & _ & _ & G). apply (G (length l') q); [rewrite Z, nth_error_app2, Nat.sub_diag by lia; reflexivity|]. rewrite <- F, Z, app_length. cbn. lia. }
  destruct Q as [(Q & _)|(_ & Q & _)]; [congruence|]. exists line, c. auto.
Qed.
Lemma screen_patchdd E argv w src : src_of E argv = Some src -> let size := blen (w_files w src) in size <= 184467440737095516 ->
  exists tr, run_trace w (snd (patchdd_main E argv w)) tr /\ screen_shows (type_in fresh (printed 0 (shown tr))) (shown tr) /\
    (fst (patchdd_main E argv w) = Ok 0 -> e_interactive E = true -> 0 < size -> exists line c, progress_line c 100 line /\ tm_done (type_in fresh (printed 0 (shown tr))) = [line]).
Proof.
  intros Hs size Hn. destruct (patchdd_display E argv w src Hs Hn) as (tr & T & G & _ & F). exists tr. split; [exact T|]. pose proof (screen_good _ _ 0 G) as Sc. split; [exact Sc|].
  intros X1 X2 X4. specialize (F X1 X2). fold size in F, G. assert (0 < blocks size). { unfold blocks. apply N.div_str_pos. lia. }
  destruct Sc as [(Z & _)|(l' & q & c & line & Z & Hc & Hl & Q & _)]; [rewrite Z in F; cbn in F; lia|].
  assert (q = 100) as ->. { destruct G as (_ & _ & _ & G). apply (G (length l') q); [rewrite Z, nth_error_app2, Nat.sub_diag by lia; reflexivity|]. rewrite <- F, Z, app_length. cbn. lia. }
  destruct Q as [(Q & _)|(_ & Q & _)]; [congruence|]. exists line, c. auto.
Qed.
