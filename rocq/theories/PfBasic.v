(** Proofs for hex strings, chomp, little-endian packing, sha_once and the I/O helpers
    (C37, C38, C42, C43, C44). *)
From Verif Require Import Base Lib SpecBasic Utils Sha PfUtils.
Ltac Zify.zify_post_hook ::= Z.div_mod_to_equations.
Local Open Scope N_scope.

(** ** Bits *)
Lemma lor_disjoint_add a b n : b < 2 ^ n -> N.lor (N.shiftl a n) b = a * 2 ^ n + b.
Proof.
  intros Hb. rewrite N.lor_comm. rewrite <- N.shiftl_mul_pow2.
  assert (L : N.land b (N.shiftl a n) = 0).
  { apply N.bits_inj_iff; intros i. rewrite N.land_spec, N.bits_0.
    destruct (N.lt_ge_cases i n).
    - rewrite N.shiftl_spec_low by lia. apply andb_false_r.
    - replace (N.testbit b i) with false; [reflexivity|]. symmetry.
      destruct (N.eq_dec b 0) as [->|Hb0]; [apply N.bits_0|].
      apply N.bits_above_log2. apply N.lt_le_trans with n; [|lia]. apply N.log2_lt_pow2; lia. }
  rewrite <- N.lxor_lor by exact L. rewrite <- N.add_nocarry_lxor by exact L. apply N.add_comm.
Qed.

Lemma nth_lt256 d i : bytes_ok d -> nth i d 0 < 256.
Proof.
  intros H. destruct (lt_dec i (length d)).
  - unfold bytes_ok in H. rewrite Forall_forall in H. apply H, nth_In. lia.
  - rewrite nth_overflow by lia. lia.
Qed.

Lemma unp64le_value d : bytes_ok d -> (8 <= length d)%nat -> unp64le d = le_value (firstn 8 d).
Proof.
  intros Hok L. unfold unp64le.
  pose proof (fun i => nth_lt256 d i Hok) as B. unfold byte_at.
  pose proof (B 0%nat). pose proof (B 1%nat). pose proof (B 2%nat). pose proof (B 3%nat).
  pose proof (B 4%nat). pose proof (B 5%nat). pose proof (B 6%nat). pose proof (B 7%nat).
  rewrite N.shiftl_0_r.
  rewrite (lor_disjoint_add (nth 1 d 0) _ 8) by lia.
  rewrite (lor_disjoint_add (nth 2 d 0) _ 16) by lia.
  rewrite (lor_disjoint_add (nth 3 d 0) _ 24) by lia.
  rewrite (lor_disjoint_add (nth 4 d 0) _ 32) by lia.
  rewrite (lor_disjoint_add (nth 5 d 0) _ 40) by lia.
  rewrite (lor_disjoint_add (nth 6 d 0) _ 48) by lia.
  rewrite (lor_disjoint_add (nth 7 d 0) _ 56) by lia.
  destruct d as [|d0 [|d1 [|d2 [|d3 [|d4 [|d5 [|d6 [|d7 d]]]]]]]]; cbn in L; try lia.
  cbn [nth firstn le_value]. lia.
Qed.

Lemma unp32le_value d : bytes_ok d -> (4 <= length d)%nat -> unp32le d = le_value (firstn 4 d).
Proof.
  intros Hok L. unfold unp32le.
  pose proof (fun i => nth_lt256 d i Hok) as B. unfold byte_at.
  pose proof (B 0%nat). pose proof (B 1%nat). pose proof (B 2%nat). pose proof (B 3%nat).
  rewrite N.shiftl_0_r.
  rewrite (lor_disjoint_add (nth 1 d 0) _ 8) by lia.
  rewrite (lor_disjoint_add (nth 2 d 0) _ 16) by lia.
  rewrite (lor_disjoint_add (nth 3 d 0) _ 24) by lia.
  destruct d as [|d0 [|d1 [|d2 [|d3 d]]]]; cbn in L; try lia.
  cbn [nth firstn le_value]. lia.
Qed.

Lemma p32le_explicit v : p32le v = [v mod 256; v / 256 mod 256; v / 65536 mod 256; v / 16777216 mod 256].
Proof.
  unfold p32le. rewrite !N.shiftr_div_pow2.
  change 255 with (N.ones 8). rewrite !N.land_ones.
  change (2 ^ 0) with 1. rewrite N.div_1_r. reflexivity.
Qed.

Lemma p32le_ok v : bytes_ok (p32le v) /\ length (p32le v) = 4%nat.
Proof.
  rewrite p32le_explicit. split; [|reflexivity].
  repeat constructor; apply N.mod_lt; lia.
Qed.

Lemma p32le_value v : le_value (p32le v) = v mod 2 ^ 32.
Proof. rewrite p32le_explicit. cbn [le_value]. change (2 ^ 32) with 4294967296. lia. Qed.

Lemma unp32le_p32le v : v < 2 ^ 32 -> unp32le (p32le v) = v.
Proof.
  intros H. destruct (p32le_ok v) as [A B]. rewrite unp32le_value by (auto; lia).
  rewrite firstn_all2 by lia. rewrite p32le_value. apply N.mod_small. exact H.
Qed.

Lemma p32le_unp32le d : bytes_ok d -> length d = 4%nat -> p32le (unp32le d) = d.
Proof.
  intros Hok L. rewrite unp32le_value by (auto; lia). rewrite firstn_all2 by lia.
  destruct d as [|d0 [|d1 [|d2 [|d3 [|d4 d]]]]]; cbn in L; try lia.
  unfold bytes_ok in Hok. repeat match goal with H : Forall _ (_ :: _) |- _ => inversion H; clear H; subst end.
  rewrite p32le_explicit. cbn [le_value]. repeat f_equal; lia.
Qed.

(** ** Hex strings *)
Lemma nibble_value c v : nibble c = Some v -> digit_value c v /\ v < 16 /\ is_hex c.
Proof.
  intros H.
  assert (Hb : c < 256).
  { unfold nibble in H. destruct ((48 <=? c) && (c <=? 57)) eqn:E1; [lia|].
    destruct ((97 <=? N.lor c 32) && (N.lor c 32 <=? 102)) eqn:E2; [|discriminate].
    assert (N.lor c 32 < 256) by lia.
    destruct (N.lt_ge_cases c 256) as [|G]; [assumption|].
    exfalso. assert (256 <= N.lor c 32); [|lia].
    apply N.le_trans with c; [lia|]. 
    assert (Hx : N.land c (N.lor c 32) = c).
    { apply N.bits_inj_iff; intros i. rewrite N.land_spec, N.lor_spec.
      destruct (N.testbit c i), (N.testbit 32 i); reflexivity. }
    rewrite <- Hx at 1. rewrite N.land_comm. 
    assert (HL : forall a b, N.land a b <= a).
    { intros a b. apply N.ldiff_le. apply N.bits_inj_iff; intros i. rewrite N.ldiff_spec, N.land_spec, N.bits_0.
      destruct (N.testbit a i), (N.testbit b i); reflexivity. }
    apply HL. }
  assert (G : forallb (fun k => let c := N.of_nat k in
     match nibble c with None => true
     | Some v => ((match nth_error lower_alphabet (N.to_nat v) with Some x => x =? c | None => false end) ||
        (match nth_error upper_alphabet (N.to_nat v) with Some x => x =? c | None => false end))
        && (v <? 16) && existsb (N.eqb c) hex_alphabet end) (seq 0 256) = true) by (vm_compute; reflexivity).
  rewrite forallb_forall in G. specialize (G (N.to_nat c)). cbv zeta in G. rewrite N2Nat.id, H in G.
  assert (HI : In (N.to_nat c) (seq 0 256)) by (apply in_seq; lia). specialize (G HI).
  apply andb_prop in G as [G G3]. apply andb_prop in G as [G1 G2].
  repeat split; [|lia|].
  - unfold digit_value. apply orb_prop in G1 as [G1|G1].
    + left. destruct (nth_error lower_alphabet _); [|discriminate]. f_equal; lia.
    + right. destruct (nth_error upper_alphabet _); [|discriminate]. f_equal; lia.
  - apply existsb_exists in G3 as [x [Hx Hc]]. unfold is_hex. replace c with x by lia. exact Hx.
Qed.

Lemma nibble_hex c : is_hex c -> exists v, nibble c = Some v.
Proof.
  intros H.
  assert (G : forallb (fun c => match nibble c with Some _ => true | None => false end) hex_alphabet = true)
    by (vm_compute; reflexivity).
  rewrite forallb_forall in G. specialize (G c H). destruct (nibble c); [eauto|discriminate].
Qed.

Lemma is_hex_nz c : is_hex c -> c <> 0.
Proof.
  intros H ->. unfold is_hex in H.
  assert (G : existsb (N.eqb 0) hex_alphabet = false) by (vm_compute; reflexivity).
  assert (existsb (N.eqb 0) hex_alphabet = true) by (apply existsb_exists; exists 0; auto).
  congruence.
Qed.

Lemma parse_hex_loop_some s : forall half out,
  no_nul s -> ((exists r, parse_hex_loop s half out = Some r) <-> Forall is_hex s).
Proof.
  induction s as [|c s IH]; intros half out Hn.
  - cbn. split; [constructor|intros _; eauto].
  - assert (Hc : c <> 0) by (intros ->; apply Hn; now left).
    assert (Hs : no_nul s) by (intros X; apply Hn; now right).
    cbn [parse_hex_loop]. replace (c =? 0) with false by lia.
    destruct (nibble c) as [v|] eqn:En.
    + destruct (nibble_value _ _ En) as (_ & _ & Hx).
      destruct half as [h|]; rewrite IH by assumption; (split; [intros F; now constructor|intros F; now inversion F]).
    + split; [intros [r Hr]; discriminate|]. intros F. inversion F as [|? ? F1 F2]; subst.
      apply nibble_hex in F1 as [v Hv]. congruence.
Qed.

Lemma parse_hex_accepts s : no_nul s -> ((exists r, parse_hex s = Some r) <-> Forall is_hex s).
Proof. apply parse_hex_loop_some. Qed.

Lemma parse_hex_loop_acc n : forall s out r, (length s <= n)%nat -> parse_hex_loop s None out = Some r ->
  exists r', parse_hex_loop s None [] = Some r' /\ r = out ++ r'.
Proof.
  induction n as [|n IH]; intros s out r L H.
  - destruct s; [|cbn in L; lia]. cbn in *. injection H as <-. exists []. now rewrite app_nil_r.
  - destruct s as [|c [|c2 s]].
    + cbn in *. injection H as <-. exists []. now rewrite app_nil_r.
    + cbn in *. destruct (c =? 0); [injection H as <-; exists []; now rewrite app_nil_r|].
      destruct (nibble c); [|discriminate]. injection H as <-. eauto.
    + cbn in *. destruct (c =? 0); [injection H as <-; exists []; now rewrite app_nil_r|].
      destruct (nibble c) as [v|]; [|discriminate].
      destruct (c2 =? 0); [injection H as <-; eauto|].
      destruct (nibble c2) as [v2|]; [|discriminate].
      apply IH in H as [r' [H ->]]; [|lia].
      exists (N.lor (N.shiftl v 4) v2 :: r'). split; [|now rewrite <- app_assoc].
      destruct (parse_hex_loop s None [N.lor (N.shiftl v 4) v2]) as [r2|] eqn:E.
      * assert (LS : (length s <= n)%nat) by lia.
        destruct (IH _ _ _ LS E) as [r3 [H3 ->]].
        rewrite H in H3. injection H3 as <-. reflexivity.
      * exfalso. clear -H E.
        assert (G : forall s h out out', parse_hex_loop s h out = None -> parse_hex_loop s h out' = None).
        { clear. induction s as [|c s IH]; intros h out out'; cbn; [discriminate|].
          destruct (c =? 0); [discriminate|]. destruct (nibble c); [|auto]. destruct h; apply IH. }
        rewrite (G _ _ _ [] E) in H. discriminate.
Qed.

Lemma parse_hex_cons2 h l s a b r :
  nibble h = Some a -> nibble l = Some b -> parse_hex s = Some r ->
  parse_hex (h :: l :: s) = Some (N.lor (N.shiftl a 4) b :: r).
Proof.
  intros Ha Hb H. unfold parse_hex in *. cbn.
  assert (h <> 0) by (intros ->; discriminate). assert (l <> 0) by (intros ->; discriminate).
  replace (h =? 0) with false by lia. rewrite Ha. replace (l =? 0) with false by lia. rewrite Hb.
  cbn [app]. destruct (parse_hex_loop s None [N.lor (N.shiftl a 4) b]) as [r2|] eqn:E.
  - destruct (parse_hex_loop_acc (length s) s _ _ (le_n _) E) as [r3 [H3 ->]]. rewrite H in H3. injection H3 as <-. reflexivity.
  - exfalso. assert (G : forall s h out out', parse_hex_loop s h out = None -> parse_hex_loop s h out' = None).
    { clear. induction s as [|c s IH]; intros h out out'; cbn; [discriminate|].
      destruct (c =? 0); [discriminate|]. destruct (nibble c); [|auto]. destruct h; apply IH. }
    rewrite (G _ _ _ [] E) in H. discriminate.
Qed.

(** Uniqueness of digit values *)
Lemma digit_value_nibble c v : digit_value c v -> nibble c = Some v.
Proof.
  intros H.
  assert (G : forall v, (v < 16)%nat ->
     (forall c, nth_error lower_alphabet v = Some c -> nibble c = Some (N.of_nat v)) /\
     (forall c, nth_error upper_alphabet v = Some c -> nibble c = Some (N.of_nat v))).
  { intros v0 Hv. do 16 (destruct v0 as [|v0]; [split; intros c0 Hc; vm_compute in Hc; injection Hc as <-; vm_compute; reflexivity|]). lia. }
  assert (Hv : (N.to_nat v < 16)%nat).
  { destruct (lt_dec (N.to_nat v) 16); [assumption|].
    exfalso. assert (L1 : length lower_alphabet = 16%nat) by reflexivity.
    assert (L2 : length upper_alphabet = 16%nat) by reflexivity.
    destruct H as [H|H].
    - assert (N.to_nat v < length lower_alphabet)%nat by (apply nth_error_Some; congruence). lia.
    - assert (N.to_nat v < length upper_alphabet)%nat by (apply nth_error_Some; congruence). lia. }
  destruct (G _ Hv) as [G1 G2]. rewrite N2Nat.id in *. destruct H as [H|H]; auto.
Qed.

Lemma parse_hex_denotes s d : hex_denotes s d -> parse_hex s = Some d.
Proof.
  induction 1 as [|h l a b s d Ha Hb H IH]; [reflexivity|].
  apply digit_value_nibble in Ha, Hb.
  rewrite (parse_hex_cons2 _ _ _ _ _ _ Ha Hb IH). do 2 f_equal.
  destruct (nibble_value _ _ Hb) as (_ & Hlt & _). rewrite lor_disjoint_add by (change (2 ^ 4) with 16; lia).
  change (2 ^ 4) with 16. lia.
Qed.

Lemma denotes_parse_hex n : forall s d, (length s <= n)%nat -> no_nul s -> Nat.Even (length s) ->
  parse_hex s = Some d -> hex_denotes s d.
Proof.
  induction n as [|n IH]; intros s d L Hn Hev H.
  - destruct s; [|cbn in L; lia]. cbn in H. injection H as <-. constructor.
  - destruct s as [|c [|c2 s]].
    + cbn in H. injection H as <-. constructor.
    + destruct Hev as [k Hk]; cbn in Hk; lia.
    + assert (F : Forall is_hex (c :: c2 :: s)) by (apply parse_hex_accepts; eauto).
      inversion F as [|? ? F1 F']; subst. inversion F' as [|? ? F2 F3]; subst.
      destruct (nibble_hex _ F1) as [a Ha]. destruct (nibble_hex _ F2) as [b Hb].
      assert (Hs : no_nul s) by (intros X; apply Hn; now right; right).
      apply parse_hex_accepts in F3 as [r Hr]; [|assumption].
      rewrite (parse_hex_cons2 _ _ _ _ _ _ Ha Hb Hr) in H. injection H as <-.
      destruct (nibble_value _ _ Ha) as (Va & La & _). destruct (nibble_value _ _ Hb) as (Vb & Lb & _).
      rewrite lor_disjoint_add by (change (2 ^ 4) with 16; lia). rewrite N.mul_comm. change (2 ^ 4) with 16.
      constructor; auto. apply IH; auto; [cbn in L; lia|].
      destruct Hev as [k Hk]. cbn in Hk. exists (k - 1)%nat. lia.
Qed.

Lemma hex_denotes_iff s d : no_nul s -> Nat.Even (length s) -> (parse_hex s = Some d <-> hex_denotes s d).
Proof.
  intros Hn He. split; [|apply parse_hex_denotes]. now apply (denotes_parse_hex (length s)).
Qed.

Lemma hex_denotes_length s d : hex_denotes s d -> length s = (2 * length d)%nat.
Proof. induction 1; cbn; lia. Qed.
Lemma hex_denotes_ok s d : hex_denotes s d -> bytes_ok d.
Proof.
  induction 1 as [|h l a b s d Ha Hb H IH]; constructor; auto.
  apply digit_value_nibble, nibble_value in Ha, Hb. lia.
Qed.

Lemma digit_lower v : v < 16 -> nth_error lower_alphabet (N.to_nat v) = Some (hex_digit v).
Proof.
  intros H. assert (G : forallb (fun k => match nth_error lower_alphabet k with
      Some x => x =? hex_digit (N.of_nat k) | None => false end) (seq 0 16) = true) by (vm_compute; reflexivity).
  rewrite forallb_forall in G. specialize (G (N.to_nat v)). rewrite N2Nat.id in G.
  assert (HI : In (N.to_nat v) (seq 0 16)) by (apply in_seq; lia). specialize (G HI).
  destruct (nth_error lower_alphabet _); [|discriminate]. f_equal. lia.
Qed.

Lemma format_denotes id : bytes_ok id -> hex_denotes (chunk_format_id id) id.
Proof.
  induction 1 as [|b id Hb Hid IH]; [constructor|].
  unfold chunk_format_id in *. cbn [flat_map hex_byte app].
  assert (Eb : b = 16 * (N.shiftr b 4) + N.land b 15).
  { rewrite N.shiftr_div_pow2. change 15 with (N.ones 4). rewrite N.land_ones. change (2 ^ 4) with 16. lia. }
  assert (A1 : N.shiftr b 4 < 16) by (rewrite N.shiftr_div_pow2; change (2 ^ 4) with 16; lia).
  assert (A2 : N.land b 15 < 16) by (change 15 with (N.ones 4); rewrite N.land_ones; change (2 ^ 4) with 16; lia).
  rewrite Eb at 3. constructor; auto; left; apply digit_lower; assumption.
Qed.

Lemma hex_roundtrip id : bytes_ok id -> parse_hex (chunk_format_id id) = Some id.
Proof. intros. apply parse_hex_denotes, format_denotes. assumption. Qed.

Lemma format_lower id : bytes_ok id ->
  length (chunk_format_id id) = (2 * length id)%nat /\
  Forall (fun c => In c lower_alphabet) (chunk_format_id id).
Proof.
  intros H. split; [apply hex_denotes_length, format_denotes, H|].
  induction H as [|b id Hb Hid IH]; [constructor|].
  unfold chunk_format_id in *. cbn [flat_map hex_byte app].
  assert (A1 : N.shiftr b 4 < 16) by (rewrite N.shiftr_div_pow2; change (2 ^ 4) with 16; lia).
  assert (A2 : N.land b 15 < 16) by (change 15 with (N.ones 4); rewrite N.land_ones; change (2 ^ 4) with 16; lia).
  constructor; [|constructor; [|exact IH]]; eapply nth_error_In; apply digit_lower; assumption.
Qed.

Lemma format_inj a b : bytes_ok a -> bytes_ok b -> chunk_format_id a = chunk_format_id b -> a = b.
Proof.
  intros Ha Hb H. apply hex_roundtrip in Ha, Hb. rewrite H in Ha. congruence.
Qed.

(** ** chomp *)
Lemma list_last {A} (a : list A) : a = [] \/ exists a' c, a = a' ++ [c].
Proof. destruct a as [|x a]; [auto|]. right. destruct (@exists_last _ (x :: a)) as (a' & c & H); [discriminate|eauto]. Qed.

Lemma is_eol_spec c : is_eol c = true <-> eol c.
Proof. unfold is_eol, eol. lia. Qed.

Lemma chomp_loop_noeol s : forall i r q, Forall (fun c => ~ eol c) s -> chomp_loop s i r q = q.
Proof.
  induction s as [|c s IH]; intros i r q F; cbn; [reflexivity|].
  inversion F as [|? ? F1 F2]; subst. destruct (is_eol c) eqn:E; [apply is_eol_spec in E; contradiction|]. auto.
Qed.
Lemma chomp_loop_eol e : forall s i q, Forall eol e ->
  chomp_loop (e ++ s) i true q = chomp_loop s (i + length e) true q.
Proof.
  induction e as [|c e IH]; intros s i q F; cbn; [now rewrite Nat.add_0_r|].
  inversion F as [|? ? F1 F2]; subst. apply is_eol_spec in F1. rewrite F1, IH by assumption. f_equal. lia.
Qed.
Lemma chomp_loop_run e s i q : e <> [] -> Forall eol e ->
  chomp_loop (e ++ s) i false q = chomp_loop s (i + length e) true (Some i).
Proof.
  destruct e as [|c e]; [congruence|]. intros _ F. inversion F as [|? ? F1 F2]; subst. cbn.
  apply is_eol_spec in F1. rewrite F1, chomp_loop_eol by assumption. f_equal. lia.
Qed.
Lemma chomp_loop_skip a : forall s i r q,
  (exists a' c, a = a' ++ [c] /\ ~ eol c) \/ a = [] /\ r = false ->
  exists q', chomp_loop (a ++ s) i r q = chomp_loop s (i + length a) false q'.
Proof.
  induction a as [|c a IH]; intros s i r q H.
  - destruct H as [(a' & c & H & _)|[_ ->]]; [destruct a'; discriminate|]. exists q. cbn. now rewrite Nat.add_0_r.
  - cbn [app chomp_loop length]. destruct H as [(a' & c' & H & Hc)|[H _]]; [|discriminate].
    destruct a' as [|x a'].
    + cbn in H. injection H as -> ->. destruct (is_eol c') eqn:E; [apply is_eol_spec in E; contradiction|].
      exists q. cbn. f_equal. lia.
    + cbn in H. injection H as <- ->.
      destruct (is_eol c) eqn:E.
      * destruct (IH s (S i) true (if r then q else Some i)) as [q' Hq]; [left; eauto|]. rewrite Hq. exists q'. f_equal. lia.
      * destruct (IH s (S i) false q) as [q' Hq]; [left; eauto|]. rewrite Hq. exists q'. f_equal. lia.
Qed.

(** chomp cuts at the last run of line ends, wherever it is. *)
Lemma chomp_last_run a e t : e <> [] -> Forall eol e -> Forall (fun c => ~ eol c) t ->
  (forall a' c, a = a' ++ [c] -> ~ eol c) -> chomp (a ++ e ++ t) = a.
Proof.
  intros He Fe Ft Ha. unfold chomp.
  destruct (chomp_loop_skip a (e ++ t) 0 false None) as [q' Hq].
  { destruct (list_last a) as [->|(a' & c & ->)]; [right; auto|left; eauto]. }
  rewrite Hq, chomp_loop_run, chomp_loop_noeol by assumption. cbn [Nat.add]. apply firstn_exact.
Qed.

Lemma chomp_no_eol s : Forall (fun c => ~ eol c) s -> chomp s = s.
Proof. intros F. unfold chomp. now rewrite chomp_loop_noeol. Qed.

Lemma chomp_trailing t e : Forall (fun c => ~ eol c) t -> Forall eol e -> chomp (t ++ e) = t.
Proof.
  intros Ft Fe. destruct e as [|c e].
  - rewrite app_nil_r. now apply chomp_no_eol.
  - rewrite <- (app_nil_r (c :: e)). apply chomp_last_run; auto; [discriminate|].
    intros a' x ->. apply Forall_app in Ft as [_ Ft]. now inversion Ft.
Qed.

(** ** sha_once *)
Lemma kc_send_spec kv : forall data r kv', kc_send data kv = (r, kv') ->
  suffix kv' kv /\
  (forall rest, r = inl (Some rest) -> end_piece rest data /\ In KErr kv /\ rest <> []) /\
  (r = inl None -> True).
Proof.
  induction kv as [|e kv IH]; intros data r kv' H.
  - destruct data; cbn in H; injection H as <- <-; (split; [apply suffix_refl|split; [intros rest; discriminate|auto]]).
  - destruct data as [|x data].
    { cbn in H; injection H as <- <-; (split; [apply suffix_refl|split; [intros rest; discriminate|auto]]). }
    set (D := x :: data) in *.
    assert (HD : D <> []) by discriminate.
    assert (Hstep : forall k, kc_send (skipn (Nat.min (S k) (length D)) D) kv = (r, kv') ->
      suffix kv' (e :: kv) /\
      (forall rest, r = inl (Some rest) -> end_piece rest D /\ In KErr (e :: kv) /\ rest <> []) /\ (r = inl None -> True)).
    { intros k Hk. apply IH in Hk as (H1 & H2 & _). split; [now apply suffix_cons|]. split; [|auto].
      intros rest Hr. destruct (H2 rest Hr) as ([p Hp] & Hin & Hne). split; [|split; [now right|auto]].
      exists (firstn (Nat.min (S k) (length D)) D ++ p).
      rewrite <- app_assoc, <- Hp, firstn_skipn. reflexivity. }
    destruct e as [k|k| |].
    + apply (Hstep k). exact H.
    + apply (Hstep k). exact H.
    + change (kc_send D kv = (r, kv')) in H. apply IH in H as (H1 & H2 & _). split; [now apply suffix_cons|]. split; [|auto].
      intros rest Hr. destruct (H2 rest Hr) as (? & ? & ?). repeat split; auto. now right.
    + change ((inl (Some D), kv) = (r, kv')) in H. injection H as <- <-.
      split; [apply suffix_cons, suffix_refl|]. split; [|auto].
      intros rest Hr. injection Hr as <-. split; [exists []; reflexivity|]. split; [now left|assumption].
Qed.

Lemma kc_recv_spec kv : forall r kv', kc_recv kv = (r, kv') ->
  suffix kv' kv /\ (r = inl false -> In KErr kv \/ exists k, In (KShort k) kv).
Proof.
  induction kv as [|e kv IH]; intros r kv' H; cbn in H.
  - injection H as <- <-. split; [apply suffix_refl|discriminate].
  - destruct e as [k|k| |].
    + injection H as <- <-. split; [apply suffix_cons, suffix_refl|discriminate].
    + injection H as <- <-. split; [apply suffix_cons, suffix_refl|]. intros _. right. exists k. now left.
    + apply IH in H as [H1 H2]. split; [now apply suffix_cons|]. intros Hr.
      destruct (H2 Hr) as [|[k Hk]]; [left; now right|right; exists k; now right].
    + injection H as <- <-. split; [apply suffix_cons, suffix_refl|]. intros _. left. now left.
Qed.

(** What the hash computation guarantees in general, and what in addition while the kernel
    interface is off or does not fail. *)
Definition kc_clean (w : world) : Prop := w_kcapi w = false \/ kernel_ok (w_kev w).

Lemma kernel_ok_suffix kv kv' : suffix kv' kv -> kernel_ok kv -> kernel_ok kv'.
Proof. apply suffix_Forall. Qed.
Lemma kernel_ok_noerr kv : kernel_ok kv -> ~ In KErr kv /\ forall k, ~ In (KShort k) kv.
Proof.
  unfold kernel_ok. rewrite Forall_forall. intros H. split.
  - intros X. exact (H _ X).
  - intros k X. exact (H _ X).
Qed.

Lemma wp_sha_once E data (Q : bytes -> world -> Prop) (R : bad -> world -> Prop) w :
  (forall k kv r, suffix kv (w_kev w) -> (w_kcapi w = false -> k = false /\ kv = w_kev w) ->
     (k = true -> r = e_H E data) ->
     (exists s, end_piece s data /\ r = e_H E s) -> (kc_clean w -> r = e_H E data) -> Q r (set_kcapi k kv w)) ->
  (forall kv, suffix kv (w_kev w) -> w_kcapi w = true -> R BHalt (set_kcapi true kv w)) ->
  wp (sha_once E data) Q R w.
Proof.
  intros HQ HR. unfold wp, sha_once.
  destruct (w_kcapi w) eqn:K; cbn [negb].
  2:{ specialize (HQ false (w_kev w) (e_H E data) (suffix_refl _) (fun _ => conj eq_refl eq_refl)).
      assert (Hw : set_kcapi false (w_kev w) w = w) by (destruct w; cbn in *; subst; reflexivity).
      rewrite Hw in HQ. apply HQ; auto. exists data. split; [exists []; reflexivity|reflexivity]. }
  destruct (kc_send data (w_kev w)) as [[[rest|]|[]] kv] eqn:ES; apply kc_send_spec in ES as (HS & Hrest & _).
  - destruct (Hrest _ eq_refl) as (Hep & Hin & _). apply HQ; auto; try discriminate.
    + eauto.
    + intros [C|C]; [congruence|]. apply kernel_ok_noerr in C. tauto.
  - destruct (kc_recv kv) as [[[|]|[]] kv2] eqn:ER; apply kc_recv_spec in ER as (HS2 & Hbad).
    + apply HQ; auto; try discriminate; [eapply suffix_trans; eauto|].
      exists data. split; [exists []; reflexivity|reflexivity].
    + apply HQ; auto; try discriminate; [eapply suffix_trans; eauto| |].
      * exists []. split; [exists data; now rewrite app_nil_r|reflexivity].
      * intros [C|C]; [congruence|]. apply (kernel_ok_suffix _ _ HS), kernel_ok_noerr in C as [C1 C2].
        destruct (Hbad eq_refl) as [|[k Hk]]; [contradiction|]. exfalso. exact (C2 k Hk).
    + apply HR; [eapply suffix_trans; eauto|reflexivity].
  - apply HR; auto.
Qed.

Lemma sha_once_clean E data w d w' : w_kcapi w = false \/ kernel_ok (w_kev w) ->
  sha_once E data w = (Ok d, w') -> d = e_H E data.
Proof.
  intros C H. eapply (wp_ok _ _ (fun r _ => r = e_H E data) (fun _ _ => True)); [|exact H].
  apply wp_sha_once; auto.
Qed.
Lemma sha_once_any E data w d w' : sha_once E data w = (Ok d, w') ->
  (exists s, end_piece s data /\ d = e_H E s) /\ (w_kcapi w' = w_kcapi w -> d = e_H E data).
Proof.
  intros H. eapply (wp_ok _ _ (fun r w' => (exists s, end_piece s data /\ r = e_H E s) /\ (w_kcapi w' = w_kcapi w -> r = e_H E data)) (fun _ _ => True)); [|exact H].
  apply wp_sha_once; auto. intros k kv r Hs H1 H2 H3 H4. split; [exact H3|].
  cbn. intros ->. destruct (w_kcapi w) eqn:K; auto. apply H4. now left.
Qed.
