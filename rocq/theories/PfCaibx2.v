(** The caibx theorems (C20, C21). *)
From Verif Require Import Base Lib Utils Chunker Caibx SpecBasic SpecCaibx PfUtils PfBasic PfIO PfRead PfCaibx.
Ltac Zify.zify_post_hook ::= Z.div_mod_to_equations.
Local Open Scope N_scope.

Section Load.
Variables (E : env) (ino : nat) (w : world).
Let f := w_files w ino.
Hypothesis (Hok : bytes_ok f) (Hl : blen f < OFF_LIMIT).

Lemma load_sound p n w' : caibx_load_header E ino w = (Ok (Some (p, n)), w') ->
  valid_index f p n /\ e_kind E ino <> KOther /\ w_files w' = w_files w.
Proof.
  intros H. pose proof (load_header_spec E ino f Hok w eq_refl Hl) as S. rewrite H in S.
  destruct S as ((ev & -> & _) & S). split; [apply S|]. split; [apply S|reflexivity].
Qed.
Lemma load_complete p n : valid_index f p n -> e_kind E ino <> KOther -> error_free (w_io w) -> (104 <= transfers (w_io w))%nat ->
  fst (caibx_load_header E ino w) = Ok (Some (p, n)).
Proof.
  intros V K EF T. pose proof (load_header_spec E ino f Hok w eq_refl Hl) as S.
  destruct (caibx_load_header E ino w) as [[[[p' n']|]| | |] w']; cbn [fst]; try tauto.
  - destruct S as (_ & V' & _). now destruct (valid_index_unique _ _ _ _ _ V V') as (-> & ->).
  - destruct S as (_ & [S|[S|S]]); [contradiction|contradiction|]. destruct (S _ _ V).
  - lia.
Qed.
Lemma load_rejects : (forall p n, ~ valid_index f p n) -> (104 <= transfers (w_io w))%nat ->
  fst (caibx_load_header E ino w) = Ok None.
Proof.
  intros V T. pose proof (load_header_spec E ino f Hok w eq_refl Hl) as S.
  destruct (caibx_load_header E ino w) as [[[[p' n']|]| | |] w']; cbn [fst]; try tauto.
  - destruct S as (_ & V' & _). destruct (V _ _ V').
  - lia.
Qed.
End Load.

(** ** Prefixes and extensions *)
Lemma field_firstn f k i : (i + 8 <= k)%nat -> field (firstn k f) i = field f i.
Proof. intros. unfold field, slice. now rewrite skipn_firstn_comm, firstn_firstn, Nat.min_l by lia. Qed.

Lemma prefix_rejected f p n k : valid_index f p n -> (forall i, (i < N.to_nat n)%nat -> ent_end f i <> 0) ->
  (k < length f)%nat -> forall p' n', ~ valid_index (firstn k f) p' n'.
Proof.
  intros V He Hk p' n' V'. destruct V as (L & _).
  destruct V' as (L' & _ & _ & _ & _ & _ & _ & _ & _ & _ & Z & _).
  unfold blen in *. rewrite firstn_length in L'.
  rewrite field_firstn in Z by lia. apply (He (N.to_nat n')); [lia|exact Z].
Qed.
Lemma extension_rejected f p n x : valid_index f p n -> (0 < length x < 40)%nat -> forall p' n', ~ valid_index (f ++ x) p' n'.
Proof.
  intros (L & _) Hx p' n' (L' & _). rewrite blen_app in L'. unfold blen in *. lia.
Qed.

(** ** Round trip *)
Lemma le64_length v : length (le64 v) = 8%nat. Proof. unfold le64. now rewrite map_length, seq_length. Qed.
Lemma le64_ok v : bytes_ok (le64 v).
Proof. unfold bytes_ok, le64. apply Forall_map, Forall_forall. intros. apply N.mod_lt. discriminate. Qed.
Lemma le64_value v : v < 2 ^ 64 -> le_value (le64 v) = v.
Proof.
  intros H. unfold le64. cbn [map seq le_value].
  change (N.of_nat 0) with 0. change (N.of_nat 1) with 1. change (N.of_nat 2) with 2. change (N.of_nat 3) with 3.
  change (N.of_nat 4) with 4. change (N.of_nat 5) with 5. change (N.of_nat 6) with 6. change (N.of_nat 7) with 7.
  change (256 ^ 0) with 1. change (256 ^ 1) with 256. change (256 ^ 2) with 65536. change (256 ^ 3) with 16777216.
  change (256 ^ 4) with 4294967296. change (256 ^ 5) with 1099511627776. change (256 ^ 6) with 281474976710656.
  change (256 ^ 7) with 72057594037927936. change (2 ^ 64) with 18446744073709551616 in H.
  assert (D : forall a b, b <> 0 -> v / a / b = v / (a * b) ) by (intros; destruct (N.eq_dec a 0); [subst; now destruct v, b|apply N.div_div; auto]).
  set (q0 := v / 1). assert (q0 = v) by (apply N.div_1_r).
  set (q1 := v / 256). set (q2 := v / 65536). set (q3 := v / 16777216). set (q4 := v / 4294967296).
  set (q5 := v / 1099511627776). set (q6 := v / 281474976710656). set (q7 := v / 72057594037927936).
  assert (E2 : q2 = q1 / 256) by (unfold q1, q2; now rewrite D).
  assert (E3 : q3 = q2 / 256) by (unfold q3, q2; now rewrite D).
  assert (E4 : q4 = q3 / 256) by (unfold q3, q4; now rewrite D).
  assert (E5 : q5 = q4 / 256) by (unfold q5, q4; now rewrite D).
  assert (E6 : q6 = q5 / 256) by (unfold q5, q6; now rewrite D).
  assert (E7 : q7 = q6 / 256) by (unfold q7, q6; now rewrite D).
  assert (L7 : q7 < 256) by (apply N.div_lt_upper_bound; [discriminate|exact H]).
  assert (E1 : q1 = q0 / 256) by (unfold q1; congruence).
  clearbody q0 q1 q2 q3 q4 q5 q6 q7. lia.
Qed.

(** A field inside a concatenation. *)
Lemma field_app1 a b i : (i + 8 <= length a)%nat -> field (a ++ b) i = field a i.
Proof. intros. unfold field, slice. rewrite skipn_app_le, firstn_app_le by (rewrite ?skipn_length; lia). reflexivity. Qed.
Lemma field_app2 a b i : (length a <= i)%nat -> field (a ++ b) i = field b (i - length a).
Proof. intros. unfold field, slice. now rewrite skipn_app_ge by lia. Qed.
Lemma field_le64 v r : v < 2 ^ 64 -> field (le64 v ++ r) 0 = v.
Proof. intros H. rewrite field_app1 by (rewrite le64_length; lia). unfold field, slice. cbn [skipn]. rewrite firstn_all2 by (rewrite le64_length; lia). now apply le64_value. Qed.
Lemma field_le64' v : v < 2 ^ 64 -> field (le64 v) 0 = v.
Proof. intros. rewrite <- (app_nil_r (le64 v)). now apply field_le64. Qed.
Lemma field_skip v r i : field (le64 v ++ r) (8 + i) = field r i.
Proof. rewrite field_app2 by (rewrite le64_length; lia). rewrite le64_length. f_equal. lia. Qed.

Definition table (l : list (N * bytes)) : bytes := concat (map (fun e => le64 (fst e) ++ snd e) l).
Definition foot (m : nat) : bytes := le64 0 ++ le64 0 ++ le64 48 ++ le64 (56 + 40 * N.of_nat m) ++ le64 0x4b4f050e5549ecd1.
Definition head (flags : N) (p : params) : bytes :=
  le64 48 ++ le64 0x96824d9c7b129ff9 ++ le64 flags ++ le64 (p_min p) ++ le64 (p_avg p) ++ le64 (p_max p) ++
  le64 0xffffffffffffffff ++ le64 0xe75b9e112f17417d.
Lemma index_file_parts flags p l : index_file flags p l = head flags p ++ table l ++ foot (length l).
Proof. unfold index_file, head, table, foot. now rewrite !app_assoc_reverse. Qed.
Lemma head_length flags p : length (head flags p) = 64%nat.
Proof. unfold head. now rewrite !app_length, !le64_length. Qed.
Lemma foot_length m : length (foot m) = 40%nat.
Proof. unfold foot. now rewrite !app_length, !le64_length. Qed.
Lemma table_length l : Forall (fun e => good_id (snd e)) l -> length (table l) = (40 * length l)%nat.
Proof.
  induction 1 as [|[e id] l (H & _) _ IH]; [reflexivity|]. unfold table in *. cbn [map concat fst snd] in *.
  rewrite !app_length, IH, le64_length, H. cbn [length]. lia.
Qed.
Lemma table_ok l : Forall (fun e => good_id (snd e)) l -> bytes_ok (table l).
Proof.
  induction 1 as [|[e id] l (_ & H) _ IH]; [constructor|]. unfold table in *. cbn [map concat fst snd] in *.
  apply Forall_app; split; [apply Forall_app; split; [apply le64_ok|exact H]|exact IH].
Qed.
Lemma index_file_ok flags p l : Forall (fun e => good_id (snd e)) l -> bytes_ok (index_file flags p l).
Proof.
  intros H. unfold index_file, bytes_ok. repeat (apply Forall_app; split); try apply le64_ok. now apply table_ok.
Qed.
Lemma index_file_length flags p l : Forall (fun e => good_id (snd e)) l -> length (index_file flags p l) = (104 + 40 * length l)%nat.
Proof. intros H. rewrite index_file_parts, !app_length, head_length, foot_length, table_length by exact H. lia. Qed.

Lemma known_flags_lt x : known_flags x -> x < 2 ^ 64.
Proof. intros (a & b & c & ->). destruct a, b, c; reflexivity. Qed.

Lemma index_file_valid flags p l : known_flags flags -> good_params p -> Forall (fun e => good_id (snd e)) l ->
  N.of_nat (length l) < 2 ^ 58 -> valid_index (index_file flags p l) p (N.of_nat (length l)).
Proof.
  intros Hf (P1 & P2) Hid Hn. pose proof (known_flags_lt _ Hf) as Hf'.
  assert (L32 : 2 ^ 32 < 2 ^ 64) by reflexivity.
  assert (F64 : 56 + 40 * N.of_nat (length l) < 2 ^ 64).
  { change (2 ^ 58) with 288230376151711744 in Hn. change (2 ^ 64) with 18446744073709551616. lia. }
  unfold valid_index. unfold blen. rewrite (index_file_length _ _ _ Hid), Nat2N.id.
  assert (Hh : forall i, (i + 8 <= 64)%nat -> field (index_file flags p l) i = field (head flags p) i).
  { intros i Hi. rewrite index_file_parts. apply field_app1. rewrite head_length. exact Hi. }
  assert (Ht : forall i, field (index_file flags p l) (64 + 40 * length l + i) = field (foot (length l)) i).
  { intros i. rewrite index_file_parts, app_assoc, field_app2; rewrite app_length, head_length, (table_length _ Hid); [|lia]. f_equal. lia. }
  pose proof (Ht 0%nat) as Ht0. rewrite Nat.add_0_r in Ht0. rewrite Ht0, !Ht, !Hh by lia. unfold head, foot.
  change 56%nat with (8 + (8 + (8 + (8 + (8 + (8 + (8 + 0)))))))%nat.
  change 40%nat with (8 + (8 + (8 + (8 + (8 + 0)))))%nat.
  change 32%nat with (8 + (8 + (8 + (8 + 0))))%nat. change 24%nat with (8 + (8 + (8 + 0)))%nat.
  change 16%nat with (8 + (8 + 0))%nat. replace (field _ 8) with (field (le64 48 ++ le64 0x96824d9c7b129ff9 ++ le64 flags ++ le64 (p_min p) ++ le64 (p_avg p) ++ le64 (p_max p) ++
  le64 0xffffffffffffffff ++ le64 0xe75b9e112f17417d) (8 + 0)) by reflexivity.
  rewrite !field_skip. change (field (le64 0 ++ ?r) 8) with (field (le64 0 ++ r) (8 + 0)).
  replace (field (le64 0 ++ le64 0 ++ le64 48 ++ le64 (56 + 40 * N.of_nat (length l)) ++ le64 0x4b4f050e5549ecd1) 8) with 0.
  2:{ change 8%nat with (8 + 0)%nat. now rewrite field_skip, field_le64. }
  rewrite !field_le64, !field_le64' by (try reflexivity; lia). repeat split; auto; lia.
Qed.

(** Entry [i] of the file is element [i] of the list. *)
Lemma table_split l1 e l2 : table (l1 ++ e :: l2) = table l1 ++ (le64 (fst e) ++ snd e) ++ table l2.
Proof. unfold table. now rewrite map_app, concat_app. Qed.
Lemma index_entry flags p l1 e l2 : Forall (fun e => good_id (snd e)) (l1 ++ e :: l2) -> fst e < 2 ^ 64 ->
  ent_end (index_file flags p (l1 ++ e :: l2)) (length l1) = fst e /\
  ent_id (index_file flags p (l1 ++ e :: l2)) (length l1) = snd e.
Proof.
  intros H He. pose proof H as H0. apply Forall_app in H as (H1 & H2). inversion H2 as [|? ? (Hi & _) _]; subst.
  rewrite index_file_parts, table_split. unfold ent_end, ent_id.
  set (h := head flags p ++ table l1).
  assert (Lh : length h = (64 + 40 * length l1)%nat) by (unfold h; rewrite app_length, head_length, (table_length _ H1); reflexivity).
  generalize (foot (length (l1 ++ e :: l2))). intros ft.
  replace (head flags p ++ (table l1 ++ (le64 (fst e) ++ snd e) ++ table l2) ++ ft)
    with (h ++ le64 (fst e) ++ snd e ++ table l2 ++ ft) by (unfold h; now rewrite !app_assoc_reverse).
  split.
  - rewrite field_app2, Lh, Nat.sub_diag by lia. now apply field_le64.
  - unfold slice. rewrite (app_assoc h). rewrite skipn_app_ge by (rewrite app_length, Lh, le64_length; lia).
    rewrite app_length, Lh, le64_length.
    replace (72 + 40 * length l1 - (64 + 40 * length l1 + 8))%nat with 0%nat by lia. cbn [skipn].
    rewrite <- Hi. apply firstn_exact.
Qed.

Fixpoint last_end (start : N) (l : list (N * bytes)) : N :=
  match l with [] => start | e :: r => last_end (fst e) r end.
Lemma last_end_app start l1 e : last_end start (l1 ++ [e]) = fst e.
Proof. revert start. induction l1; intros; cbn; auto. Qed.
Lemma spans_app start l1 e : spans start (l1 ++ [e]) =
  spans start l1 ++ [(last_end start l1, fst e - last_end start l1, snd e)].
Proof.
  revert start. induction l1 as [|[e1 i1] l1 IH]; intros start; cbn [app spans last_end fst].
  - destruct e. reflexivity.
  - now rewrite IH.
Qed.
Lemma ascending_app start l1 e l2 : ascending start (l1 ++ e :: l2) ->
  last_end start l1 <= fst e /\ fst e - last_end start l1 < 2 ^ 32 /\ fst e < 2 ^ 64.
Proof.
  revert start. induction l1 as [|[e1 i1] l1 IH]; intros start; cbn [app ascending last_end fst].
  - destruct e. cbn [fst]. tauto.
  - intros (_ & _ & _ & H). now apply IH.
Qed.

Section Record.
Variables (ino : nat) (flags : N) (p : params) (l : list (N * bytes)) (w : world).
Let f := index_file flags p l.
Hypothesis (Hf : w_files w ino = f) (Hid : Forall (fun e => good_id (snd e)) l) (Hasc : ascending 0 l)
  (Hl : blen f < OFF_LIMIT).

Lemma iterate_record_wp : wp (caibx_iterate_entries record_entry ino p (N.of_nat (length l)) [])
  (fun r w' => w_files w' = w_files w /\ if fst r then snd r = spans 0 l else ~ error_free (w_io w))
  (fun b w' => b = BHalt /\ w_files w' = w_files w /\ (transfers (w_io w) < 40 * length l)%nat) w.
Proof.
  set (Inv := fun (i : nat) (last : N) (a : list (N * N * bytes)) (w' : world) =>
    exists l1 l2, l = l1 ++ l2 /\ length l1 = i /\ last = last_end 0 l1 /\ a = spans 0 l1 /\
      w_files w' = w_files w /\ suffix (w_io w') (w_io w) /\ (transfers (w_io w) <= transfers (w_io w') + 40 * i)%nat).
  eapply wp_mono.
  - apply (iterate_rule record_entry ino p f (length l)) with (Inv := Inv)
      (Fail := fun a w' => w_files w' = w_files w /\ ~ error_free (w_io w))
      (R := fun b w' => b = BHalt /\ w_files w' = w_files w /\ (transfers (w_io w) < 40 * length l)%nat).
    + apply index_file_ok, Hid.
    + unfold f. rewrite index_file_length by exact Hid. lia.
    + exact Hl.
    + intros i last a w' (l1 & l2 & _ & _ & _ & _ & Hw & _). congruence.
    + intros i last a w' ev Hi (l1 & l2 & E1 & E2 & E3 & E4 & Hw & Hs & Ht) Hs' Ht'.
      destruct l2 as [|e l2]; [rewrite app_nil_r in E1; subst; lia|].
      pose proof Hasc as HA. rewrite E1 in HA. apply ascending_app in HA. destruct HA as (A1 & A2 & A3).
      assert (EE : ent_end f i = fst e /\ ent_id f i = snd e).
      { unfold f. rewrite E1, <- E2. apply index_entry; [rewrite <- E1; exact Hid|exact A3]. }
      destruct EE as (EE1 & EE2).
      assert (EL : ent_len f last i = fst e - last).
      { unfold ent_len. rewrite EE1, E3. change (2 ^ 64) with 18446744073709551616 in *. change (2 ^ 32) with 4294967296 in *. lia. }
      assert (SK : skipped p f (length l) last i = false).
      { unfold skipped. rewrite EL, E3. replace (UINT32_MAX <? fst e - last_end 0 l1) with false; [apply andb_false_r|].
        unfold UINT32_MAX. change (2 ^ 32) with 4294967296 in *. lia. }
      rewrite SK. apply wp_ret. cbn [fst snd]. exists (l1 ++ [e]), l2.
      split; [rewrite E1, app_assoc_reverse; reflexivity|].
      split; [rewrite app_length; cbn; lia|].
      split; [rewrite last_end_app; exact EE1|].
      split; [rewrite spans_app, EL, EE2, E4, E3, N.mod_small by exact A2; reflexivity|].
      cbn [set_io w_files w_io]. split; [exact Hw|]. split; [eapply suffix_trans; eauto|lia].
    + intros i last a w' ev Hi (l1 & l2 & E1 & E2 & E3 & E4 & Hw & Hs & Ht) Hs' HE.
      split; [exact Hw|]. intros EF. apply HE. eapply error_free_suffix; eauto.
    + intros i last a w' Hi (l1 & l2 & E1 & E2 & E3 & E4 & Hw & Hs & Ht) HT.
      split; [reflexivity|]. split; [exact Hw|]. lia.
    + exists [], l. repeat split; auto; [apply suffix_refl|lia].
  - intros [ok a] w' H. cbn [fst snd] in *. destruct ok; [|exact H].
    destruct H as (last & l1 & l2 & E1 & E2 & _ & E4 & Hw & _). split; [exact Hw|].
    assert (l2 = []) by (apply length_zero_iff_nil; apply (f_equal (@length _)) in E1; rewrite app_length in E1; lia).
    subst l2. rewrite app_nil_r in E1. congruence.
  - auto.
Qed.
End Record.

Lemma load_header_total E ino w p n : bytes_ok (w_files w ino) -> blen (w_files w ino) < OFF_LIMIT ->
  valid_index (w_files w ino) p n -> e_kind E ino <> KOther ->
  error_free (w_io w) -> (104 <= transfers (w_io w))%nat ->
  exists w', caibx_load_header E ino w = (Ok (Some (p, n)), w') /\ rd w 104 w'.
Proof.
  intros Hok Hl V K EF T. pose proof (load_complete E ino w Hok Hl p n V K EF T) as L.
  pose proof (load_header_spec E ino _ Hok w eq_refl Hl) as S.
  destruct (caibx_load_header E ino w) as [o w']. cbn [fst] in L. subst o. exists w'. split; [reflexivity|apply S].
Qed.

Lemma round_trip E ino flags p l w :
  w_files w ino = index_file flags p l -> e_kind E ino <> KOther ->
  known_flags flags -> good_params p -> Forall (fun e => good_id (snd e)) l -> ascending 0 l ->
  blen (index_file flags p l) < OFF_LIMIT -> error_free (w_io w) -> (104 + 40 * length l <= transfers (w_io w))%nat ->
  exists w1, caibx_load_header E ino w = (Ok (Some (p, N.of_nat (length l))), w1) /\
  exists w2, caibx_iterate_entries record_entry ino p (N.of_nat (length l)) [] w1 = (Ok (true, spans 0 l), w2).
Proof.
  intros Hf K HF HP HI HA HL EF T.
  assert (V : valid_index (w_files w ino) p (N.of_nat (length l))).
  { rewrite Hf. apply index_file_valid; auto. unfold blen in HL. rewrite index_file_length in HL by exact HI.
    change (2 ^ 58) with 288230376151711744. unfold OFF_LIMIT in HL. lia. }
  destruct (load_header_total E ino w p (N.of_nat (length l))) as (w1 & E1 & R); auto.
  { rewrite Hf. now apply index_file_ok. } { rewrite Hf. exact HL. } { lia. }
  exists w1. split; [exact E1|].
  destruct R as (ev & -> & Hs & Ht).
  pose proof (iterate_record_wp ino flags p l (set_io ev w) Hf HI HA HL) as S. unfold wp in S.
  destruct (caibx_iterate_entries record_entry ino p (N.of_nat (length l)) [] (set_io ev w)) as [[[ok a]| | |] w2].
  - destruct S as (_ & S). cbn [fst snd set_io w_io] in S. destruct ok; [subst a; eauto|].
    exfalso. apply S. eapply error_free_suffix; eauto.
  - destruct S; discriminate.
  - destruct S; discriminate.
  - destruct S as (_ & _ & S). cbn [set_io w_io] in S. lia.
Qed.
