(** Reading index files (C20, C21). *)
From Verif Require Import Base Lib Utils Chunker Caibx SpecBasic SpecCaibx PfUtils PfBasic PfIO PfRead.
Ltac Zify.zify_post_hook ::= Z.div_mod_to_equations.
Local Open Scope N_scope.

Lemma unp64_field f off len k : bytes_ok f -> (off + N.to_nat len <= length f)%nat -> (k + 8 <= N.to_nat len)%nat ->
  unp64le (skipn k (slice off (N.to_nat len) f)) = field f (off + k).
Proof.
  intros Hok L1 L2. unfold field. rewrite skipn_slice, unp64le_value.
  - rewrite firstn_slice by lia. reflexivity.
  - apply bytes_ok_slice, Hok.
  - rewrite length_slice; lia.
Qed.
Lemma unp64_field0 f off len : bytes_ok f -> (off + N.to_nat len <= length f)%nat -> (8 <= N.to_nat len)%nat ->
  unp64le (slice off (N.to_nat len) f) = field f off.
Proof. intros. rewrite <- (Nat.add_0_r off) at 2. rewrite <- (unp64_field f off len 0) by (auto; lia). reflexivity. Qed.

Lemma field_lt f i : bytes_ok f -> field f i < 2 ^ 64.
Proof.
  intros H. unfold field.
  assert (G : forall d, bytes_ok d -> le_value d < 256 ^ N.of_nat (length d)).
  { induction d as [|b d IH]; intros Hd; [reflexivity|]. inversion Hd; subst. cbn [le_value length].
    replace (N.of_nat (S (length d))) with (1 + N.of_nat (length d)) by lia. rewrite N.pow_add_r.
    specialize (IH H3). change (256 ^ 1) with 256. nia. }
  eapply N.lt_le_trans; [apply G, bytes_ok_slice, H|].
  change (2 ^ 64) with (256 ^ 8). apply N.pow_le_mono_r; [lia|].
  unfold slice. rewrite firstn_length. lia.
Qed.

(** The flags test. *)
Lemma known_flags_iff x : x < 2 ^ 64 -> (N.land x FLAGS_MASK =? 0) = true <-> known_flags x.
Proof.
  intros Hx. rewrite N.eqb_eq. split.
  - intros H.
    (* x = high nibble * 2^60, and the nibble has no bit 1 *)
    assert (Hlow : x mod 2 ^ 60 = 0).
    { rewrite <- N.land_ones. apply N.bits_inj_iff. intros i. rewrite N.bits_0, N.land_spec.
      destruct (N.lt_ge_cases i 60) as [L|G].
      - apply (f_equal (fun z => N.testbit z i)) in H. rewrite N.land_spec, N.bits_0 in H.
        assert (Hm : N.testbit FLAGS_MASK i = true).
        { replace FLAGS_MASK with (N.lor (N.ones 60) (N.shiftl 2 60)) by reflexivity.
          rewrite N.lor_spec, N.ones_spec_low by exact L. reflexivity. }
        rewrite Hm, andb_true_r in H. now rewrite H.
      - rewrite N.ones_spec_high by exact G. apply andb_false_r. }
    assert (H61 : N.testbit x 61 = false).
    { apply (f_equal (fun z => N.testbit z 61)) in H. rewrite N.land_spec, N.bits_0 in H.
      replace (N.testbit FLAGS_MASK 61) with true in H by reflexivity. now rewrite andb_true_r in H. }
    set (q := x / 2 ^ 60). assert (Hq : q < 16) by (unfold q; apply N.div_lt_upper_bound; [discriminate|exact Hx]).
    assert (Ex : x = q * 2 ^ 60).
    { unfold q. rewrite (N.div_mod x (2 ^ 60)) at 1 by discriminate. rewrite Hlow. lia. }
    rewrite Ex in H61. rewrite N.mul_pow2_bits_high in H61 by lia. change (61 - 60) with 1 in H61.
    clearbody q. subst x. clear H Hx Hlow.
    assert (C : q = 0 \/ q = 1 \/ q = 4 \/ q = 5 \/ q = 8 \/ q = 9 \/ q = 12 \/ q = 13).
    { destruct q as [|q]; [auto|]. do 4 (destruct q as [q|q|]; try (cbn in H61; discriminate H61); try lia). }
    destruct C as [->|[->|[->|[->|[->|[->|[->| ->]]]]]]].
    + exists false, false, false. reflexivity.
    + exists false, false, true. reflexivity.
    + exists false, true, false. reflexivity.
    + exists false, true, true. reflexivity.
    + exists true, false, false. reflexivity.
    + exists true, false, true. reflexivity.
    + exists true, true, false. reflexivity.
    + exists true, true, true. reflexivity.
  - intros (a & b & c & ->). destruct a, b, c; reflexivity.
Qed.

Lemma params_set_iff a b c p : chunker_params_set a b c = Some p <->
  (p = mkParams a b c /\ a < b < c /\ c < 2 ^ 32).
Proof.
  unfold chunker_params_set, UINT32_MAX. change (2 ^ 32) with 4294967296.
  destruct (negb ((a <? b) && (b <? c))) eqn:E1; [split; [discriminate|intros (_ & H); lia]|].
  destruct ((4294967295 <? a) || (4294967295 <? b) || (4294967295 <? c)) eqn:E2;
    [split; [discriminate|intros (_ & H); lia]|].
  split.
  - intros H; injection H as <-. split; [reflexivity|]. lia.
  - intros (-> & _). reflexivity.
Qed.

(** ** The header *)
Section Header.
Variables (E : env) (ino : nat) (f : bytes).
Hypothesis (Hok : bytes_ok f).

(** A reader's world: the file and a suffix of the schedule; [used] bytes were read so far. *)
Definition rd (w0 : world) (used : nat) (w : world) : Prop :=
  exists ev, w = set_io ev w0 /\ suffix ev (w_io w0) /\ (transfers (w_io w0) <= transfers ev + used)%nat.
Lemma rd_refl w : rd w 0 w.
Proof. exists (w_io w). rewrite set_io_id. split; [reflexivity|]. split; [apply suffix_refl|lia]. Qed.

(** A read in a reader's world: data, failure for a reason, or end of the schedule. *)
Lemma wp_read (w0 : world) used w pos len (Q : bool * bytes -> world -> Prop) (R : bad -> world -> Prop) :
  w_files w0 ino = f -> rd w0 used w -> blen f < OFF_LIMIT -> pos + len <= blen f ->
  (forall w', rd w0 (used + N.to_nat len) w' -> Q (true, slice (N.to_nat pos) (N.to_nat len) f) w') ->
  (forall w' b, (exists ev, w' = set_io ev w0 /\ suffix ev (w_io w0)) -> ~ error_free (w_io w0) -> Q (false, b) w') ->
  ((transfers (w_io w0) < used + N.to_nat len)%nat -> R BHalt (set_io [] w0)) ->
  wp (readall ino pos len) Q R w.
Proof.
  intros Hf (ev & -> & Hs & Ht) Hl Hin H1 H2 H3. unfold readall. apply wp_pread; cbn [set_io w_io w_files]; rewrite ?Hf.
  - intros ev' Hs' _ _ _ Ht'. apply H1. exists ev'. split; [destruct w0; reflexivity|].
    split; [eapply suffix_trans; eauto|lia].
  - intros ev' n Hs' _ _ Hr. apply H2.
    + exists ev'. split; [destruct w0; reflexivity|eapply suffix_trans; eauto].
    + destruct Hr as [Hr|Hr]; [|lia]. intros EF. apply Hr. eapply error_free_suffix; eauto.
  - intros Hh. replace (set_io [] (set_io ev w0)) with (set_io [] w0) by (destruct w0; reflexivity). apply H3. lia.
Qed.

Lemma valid_index_unique p n p' n' : valid_index f p n -> valid_index f p' n' -> p = p' /\ n = n'.
Proof.
  intros (A1 & _ & _ & _ & A2 & A3 & A4 & _) (B1 & _ & _ & _ & B2 & B3 & B4 & _).
  split; [|lia]. destruct p, p'. cbn in *. congruence.
Qed.

Lemma load_header_spec w : w_files w ino = f -> blen f < OFF_LIMIT ->
  match caibx_load_header E ino w with
  | (Ok (Some (p, n)), w') => rd w 104 w' /\ valid_index f p n /\ e_kind E ino <> KOther
  | (Ok None, w') => (exists ev, w' = set_io ev w /\ suffix ev (w_io w)) /\
        (~ error_free (w_io w) \/ e_kind E ino = KOther \/ forall p n, ~ valid_index f p n)
  | (Halt, w') => w' = set_io [] w /\ (transfers (w_io w) < 104)%nat
  | _ => False
  end.
Proof.
  intros Hf Hl.
  set (fails := fun w' => (exists ev, w' = set_io ev w /\ suffix ev (w_io w)) /\
        (~ error_free (w_io w) \/ e_kind E ino = KOther \/ forall p n, ~ valid_index f p n)).
  assert (G : wp (caibx_load_header E ino)
      (fun r w' => match r with Some (p, n) => rd w 104 w' /\ valid_index f p n /\ e_kind E ino <> KOther | None => fails w' end)
      (fun b w' => b = BHalt /\ w' = set_io [] w /\ (transfers (w_io w) < 104)%nat) w).
  2:{ unfold wp in G. destruct (caibx_load_header E ino w) as [[[[p n]|]| | |] w']; auto; destruct G as (G1 & G2); try discriminate G1; exact G2. }
  assert (Hfail : forall w' u, rd w u w' -> (forall p n, ~ valid_index f p n) -> fails w').
  { intros w' u (ev & -> & Hs & _) H. split; [eauto|auto]. }
  unfold caibx_load_header. apply wp_bind, wp_fd_size; intros Hk.
  2:{ apply wp_ret. split; [exists (w_io w); rewrite set_io_id; split; [reflexivity|apply suffix_refl]|auto]. }
  rewrite Hf. change (CA_HEADER_LEN + CA_TABLE_MIN_LEN) with 104.
  replace (blen f - CA_HEADER_LEN - CA_TABLE_MIN_LEN) with (blen f - 104) by (change CA_HEADER_LEN with 48; change CA_TABLE_MIN_LEN with 56; lia).
  change CA_TABLE_ENTRY_LEN with 40.
  destruct (blen f <? 104) eqn:E1.
  { apply wp_ret. apply (Hfail _ _ (rd_refl w)). intros p n V. destruct V as (V & _). lia. }
  destruct (negb ((blen f - 104) mod 40 =? 0)) eqn:E2.
  { apply wp_ret. apply (Hfail _ _ (rd_refl w)). intros p n V. destruct V as (V & _). lia. }
  set (n := (blen f - 104) / 40). assert (Hn : blen f = 104 + 40 * n) by (unfold n; lia). clearbody n.
  assert (HnN : length f = (104 + 40 * N.to_nat n)%nat) by (unfold blen in Hn; lia).
  assert (Vn : forall p m, valid_index f p m -> m = n) by (intros p m V; destruct V as (V & _); lia).
  (* header *)
  apply wp_bind. unfold load_index_header, load_section_header. apply wp_bind, wp_bind.
  eapply (wp_read w 0 w 0 16); [exact Hf|apply rd_refl|exact Hl|lia| | |].
  2:{ intros w' b Hw HE. apply wp_ret, wp_ret, wp_ret. split; [exact Hw|auto]. }
  2:{ intros H. split; [reflexivity|]. split; [reflexivity|lia]. }
  intros w1 Hw1. cbn [negb]. apply wp_ret.
  rewrite (unp64_field f _ 16 8), (unp64_field0 f _ 16) by (auto; lia). cbn [N.to_nat Nat.add].
  change (Pos.to_nat 16) with 16%nat.
  change CA_FORMAT_INDEX with 0x96824d9c7b129ff9. change CA_HEADER_LEN with 48.
  destruct (negb (field f 8 =? 0x96824d9c7b129ff9)) eqn:E3.
  { apply wp_ret, wp_ret. apply (Hfail _ _ Hw1). intros p m V. destruct V as (_ & _ & V & _). lia. }
  destruct (field f 0 <? 48) eqn:E4.
  { apply wp_ret, wp_ret. apply (Hfail _ _ Hw1). intros p m V. destruct V as (_ & V & _). lia. }
  apply wp_bind. eapply (wp_read w _ w1 (0 + 16) 32); [exact Hf|exact Hw1|exact Hl|lia| | |].
  2:{ intros w' b Hw HE. apply wp_ret, wp_ret. split; [exact Hw|auto]. }
  2:{ intros H. split; [reflexivity|]. split; [reflexivity|]. lia. }
  intros w2 Hw2. cbn [negb].
  rewrite (unp64_field f _ 32 8), (unp64_field f _ 32 16), (unp64_field f _ 32 24), (unp64_field0 f _ 32) by (auto; lia).
  change (N.to_nat (0 + 16)) with 16%nat. cbn [Nat.add].
  destruct (negb (N.land (field f 16) FLAGS_MASK =? 0)) eqn:E5.
  { apply wp_ret, wp_ret. apply (Hfail _ _ Hw2). intros p m V. destruct V as (_ & _ & _ & V & _).
    apply known_flags_iff in V; [|apply field_lt, Hok]. rewrite V in E5. discriminate. }
  assert (Hfl : known_flags (field f 16)).
  { apply known_flags_iff; [apply field_lt, Hok|]. destruct (N.land (field f 16) FLAGS_MASK =? 0); [reflexivity|discriminate]. }
  apply wp_ret. destruct (chunker_params_set (field f 24) (field f 32) (field f 40)) as [p|] eqn:E6.
  2:{ apply wp_ret. apply (Hfail _ _ Hw2). intros p m V. destruct V as (_ & _ & _ & _ & V1 & V2 & V3 & V4 & V5 & _).
      assert (chunker_params_set (field f 24) (field f 32) (field f 40) = Some p) by (apply params_set_iff; split; [destruct p; cbn in *; congruence|lia]).
      congruence. }
  apply params_set_iff in E6. destruct E6 as (-> & P1 & P2).
  (* table header *)
  apply wp_bind. unfold validate_table_header, load_section_header. apply wp_bind, wp_bind.
  eapply (wp_read w _ w2 48 16); [exact Hf|exact Hw2|exact Hl|lia| | |].
  2:{ intros w' b Hw HE. apply wp_ret, wp_ret. cbn [negb]. apply wp_ret. split; [exact Hw|auto]. }
  2:{ intros H. split; [reflexivity|]. split; [reflexivity|lia]. }
  intros w3 Hw3. cbn [negb]. apply wp_ret, wp_ret.
  rewrite (unp64_field f _ 16 8) by (auto; lia). change (N.to_nat 48 + 8)%nat with 56%nat.
  change CA_FORMAT_TABLE with 0xe75b9e112f17417d.
  destruct (negb (field f 56 =? 0xe75b9e112f17417d)) eqn:E7.
  { apply wp_ret. apply (Hfail _ _ Hw3). intros p m V. destruct V as (_ & _ & _ & _ & _ & _ & _ & _ & _ & V & _). lia. }
  (* footer *)
  apply wp_bind. unfold validate_table_footer. change CA_TABLE_HEADER_LEN with 16. change CA_TABLE_ENTRY_LEN with 40.
  change CA_HEADER_LEN with 48. apply wp_bind.
  eapply (wp_read w _ w3 (48 + 16 + n * 40) 40); [exact Hf|exact Hw3|exact Hl|lia| | |].
  2:{ intros w' b Hw HE. apply wp_ret. cbn [negb]. apply wp_ret. split; [exact Hw|auto]. }
  2:{ intros H. split; [reflexivity|]. split; [reflexivity|lia]. }
  intros w4 Hw4. cbn [negb]. apply wp_ret.
  replace (N.to_nat (48 + 16 + n * 40)) with (64 + 40 * N.to_nat n)%nat by lia.
  set (t := (64 + 40 * N.to_nat n)%nat) in *.
  rewrite (unp64_field f t 40 8), (unp64_field f t 40 16), (unp64_field f t 40 24), (unp64_field f t 40 32), (unp64_field0 f t 40) by (auto; lia).
  change CA_FORMAT_TABLE_TAIL_MARKER with 0x4b4f050e5549ecd1.
  apply wp_ret.
  destruct ((field f t =? 0) && (field f (t + 8) =? 0) && (field f (t + 16) =? 48) &&
            (field f (t + 24) =? 16 + (n + 1) * 40) && (field f (t + 32) =? 0x4b4f050e5549ecd1)) eqn:E8.
  - split; [|split; [|exact Hk]].
    + destruct Hw4 as (ev & -> & Hs & Ht). exists ev. repeat split; auto; lia.
    + unfold valid_index. fold t. cbn [p_min p_avg p_max]. repeat split; auto; lia.
  - apply (Hfail _ _ Hw4). intros p m V. pose proof (Vn _ _ V). subst m.
    destruct V as (_ & _ & _ & _ & _ & _ & _ & _ & _ & _ & V). fold t in V. lia.
Qed.
End Header.

(** ** Iterating *)
Section Iter.
Context {A : Type}.
Variables (cb : N -> N -> bytes -> A -> M (bool * A)) (ino : nat) (p : params) (f : bytes) (n : nat).
Hypothesis (Hok : bytes_ok f) (Hlen : (64 + 40 * n <= length f)%nat) (Hlim : blen f < OFF_LIMIT).
Variables (Inv : nat -> N -> A -> world -> Prop) (Fail : A -> world -> Prop) (R : bad -> world -> Prop).

(** The length computed for entry [i], and whether the entry is skipped. *)
Definition ent_len (last : N) (i : nat) : N := (ent_end f i + 2 ^ 64 - last) mod 2 ^ 64.
Definition skipped (last : N) (i : nat) : bool :=
  negb ((ent_len last i <? p_min p) && (N.of_nat i + 1 <? N.of_nat n)) &&
  (p_max p <? ent_len last i) && (UINT32_MAX <? ent_len last i).

Hypothesis Hfile : forall i last a w, Inv i last a w -> w_files w ino = f.
(** What happens on reading entry [i]. *)
Hypothesis Hio : forall i last a w ev, (i < n)%nat -> Inv i last a w -> suffix ev (w_io w) ->
  (transfers (w_io w) <= transfers ev + 40)%nat ->
  if skipped last i then Inv (S i) last a (set_io ev w)
  else wp (cb last (ent_len last i mod 2 ^ 32) (ent_id f i) a)
          (fun r w' => if fst r then Inv (S i) (ent_end f i) (snd r) w' else Fail (snd r) w') R (set_io ev w).
Hypothesis Herr : forall i last a w ev, (i < n)%nat -> Inv i last a w -> suffix ev (w_io w) ->
  ~ error_free (w_io w) -> Fail a (set_io ev w).
Hypothesis Hhalt : forall i last a w, (i < n)%nat -> Inv i last a w -> (transfers (w_io w) < 40)%nat -> R BHalt (set_io [] w).

Lemma iterate_loop_rule : forall k i last a w, (i + k = n)%nat -> Inv i last a w ->
  wp (iterate_loop cb ino p (N.of_nat n) k (N.of_nat i) last a)
     (fun r w' => if fst r then exists last', Inv n last' (snd r) w' else Fail (snd r) w') R w.
Proof.
  induction k as [|k IH]; intros i last a w Hk HI; cbn [iterate_loop].
  - apply wp_ret. cbn [fst snd]. rewrite Nat.add_0_r in Hk. subst i. eauto.
  - apply wp_bind. unfold readall. change CA_HEADER_LEN with 48. change CA_TABLE_HEADER_LEN with 16. change CA_TABLE_ENTRY_LEN with 40.
    apply wp_pread; rewrite ?(Hfile _ _ _ _ HI).
    + intros ev' Hs _ _ _ Ht. cbn [negb].
      replace (N.to_nat 40) with 40%nat in Ht by reflexivity.
      assert (Hi : (i < n)%nat) by lia.
      pose proof (Hio _ _ _ _ _ Hi HI Hs Ht) as Hc.
      rewrite slice_N_slice.
      replace (N.to_nat (48 + 16 + N.of_nat i * 40)) with (64 + 40 * i)%nat by lia.
      rewrite (unp64_field0 f _ 40) by (auto; lia). change (N.to_nat 40) with 40%nat. rewrite skipn_slice. fold (ent_end f i).
      change SIZE_MOD with (2 ^ 64). fold (ent_len last i). fold (skipped last i).
      replace (slice (64 + 40 * i + 8) (40 - 8) f) with (ent_id f i) by (unfold ent_id; f_equal; lia).
      replace (N.of_nat i + 1) with (N.of_nat (S i)) in * by lia.
      destruct (skipped last i).
      * apply IH; [lia|exact Hc].
      * apply wp_bind. change M32 with (2 ^ 32). eapply wp_mono; [exact Hc| |auto]. intros [ok a'] w' H. cbn [fst snd] in H.
        destruct ok; cbn [negb]; [apply IH; [lia|exact H]|apply wp_ret; exact H].
    + intros ev' m Hs _ _ Hr. cbn [negb]. apply wp_ret. cbn [fst snd]. eapply (Herr i); eauto; [lia|].
      destruct Hr as [Hr|Hr]; [exact Hr|]. unfold blen in *. lia.
    + intros Hh. eapply (Hhalt i); eauto; lia.
Qed.

Lemma iterate_rule a w : Inv 0 0 a w ->
  wp (caibx_iterate_entries cb ino p (N.of_nat n) a)
     (fun r w' => if fst r then exists last', Inv n last' (snd r) w' else Fail (snd r) w') R w.
Proof. intros HI. unfold caibx_iterate_entries. rewrite Nat2N.id. apply (iterate_loop_rule n 0); [lia|exact HI]. Qed.
End Iter.
