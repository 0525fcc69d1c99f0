(** Proofs about key specifications (C36). *)
From Verif Require Import Base Lib SpecBasic Utils Encrypt PfUtils PfBasic PfIO.
Ltac Zify.zify_post_hook ::= Z.div_mod_to_equations.
Local Open Scope N_scope.

Lemma parse_hex_written_loop s : forall half out r,
  parse_hex_loop s half out = Some r -> r = out ++ parse_hex_written s half.
Proof.
  induction s as [|c s IH]; intros half out r H; cbn in *.
  - destruct half; injection H as <-; now rewrite ?app_nil_r.
  - destruct (c =? 0); [destruct half; injection H as <-; now rewrite ?app_nil_r|].
    destruct (nibble c) as [n|]; [|discriminate].
    destruct half as [h|]; apply IH in H; subst; [|reflexivity]. now rewrite <- app_assoc.
Qed.

Lemma length_parse_hex_written s : forall half,
  (2 * length (parse_hex_written s half) <= length s + match half with Some _ => 2 | None => 1 end)%nat.
Proof.
  induction s as [|c s IH]; intros half; cbn.
  - destruct half; cbn; lia.
  - destruct (c =? 0); [destruct half; cbn; lia|].
    destruct (nibble c) as [n|]; [|destruct half; cbn; lia].
    destruct half as [h|]; cbn [length].
    + specialize (IH None). cbn in IH. lia.
    + specialize (IH (Some (N.shiftl n 4))). cbn in IH. lia.
Qed.

Lemma overlay_all a b : length b = length a -> overlay a b = a.
Proof. intros L. unfold overlay. rewrite skipn_all2 by lia. apply app_nil_r. Qed.

(** Decoding of the key string; [ko] is the 32-byte output buffer. *)
Lemma decode_key_buf_spec ko s ok out : no_nul s -> length ko = 32%nat ->
  decode_key_buf ko s = (ok, out) ->
  length out = 32%nat /\
  (ok = true <-> length s = 64%nat /\ Forall is_hex s) /\
  (ok = true -> hex_denotes s out) /\
  (ok = false -> out = if Nat.eqb (length s) 64 then repeat 0 32 else ko).
Proof.
  intros Hn Lk H. unfold decode_key_buf in H.
  destruct (Nat.eqb (length s) 64) eqn:EL; cbn [negb] in H.
  2:{ injection H as <- <-. apply Nat.eqb_neq in EL. repeat split; auto; try discriminate.
      intros [X _]. contradiction. }
  apply Nat.eqb_eq in EL.
  pose proof (length_parse_hex_written s None) as LW. rewrite EL in LW.
  destruct (parse_hex s) as [r|] eqn:EP; injection H as <- <-.
  - assert (Hd : hex_denotes s r).
    { apply hex_denotes_iff; auto. exists 32%nat. lia. }
    pose proof (hex_denotes_length _ _ Hd) as L.
    pose proof (parse_hex_written_loop _ _ _ _ EP) as ER. cbn [app] in ER.
    rewrite <- ER, overlay_all by lia.
    split; [lia|]. split; [|split; [auto|discriminate]].
    split; [|auto]. intros _. split; [exact EL|]. apply parse_hex_accepts; eauto.
  - assert (LO : length (overlay (parse_hex_written s None) ko) = 32%nat) by (rewrite length_overlay; lia).
    rewrite overlay_all by (rewrite LO; reflexivity).
    split; [reflexivity|]. split; [|split; [discriminate|auto]].
    split; [discriminate|]. intros [_ F]. apply parse_hex_accepts in F as [r Hr]; congruence.
Qed.

(** The texts a key specification may denote, given the environment and the files. *)
Inductive key_text (E : env) (w : world) (spec : bytes) : bytes -> Prop :=
| kt_lit s : spec = bs "key:" ++ s -> key_text E w spec s
| kt_env v s : spec = bs "env:" ++ v -> e_getenv E v = Some s -> key_text E w spec s
| kt_file p ino : spec = bs "file:" ++ p -> e_open E p = Some ino -> e_kind E ino <> KOther ->
    key_text E w spec (chomp (cstr (w_files w ino))).

Lemma startswith_skip spec pre : startswith spec pre = true -> spec = pre ++ skipn (length pre) spec.
Proof. intros H. apply startswith_spec in H as [t ->]. now rewrite skipn_exact. Qed.

Lemma cstr_no_nul l : no_nul (cstr l).
Proof.
  unfold no_nul. induction l as [|c l IH]; cbn; [tauto|]. destruct (c =? 0) eqn:E; [cbn; tauto|].
  cbn. intros [X|X]; [lia|contradiction].
Qed.
Lemma cstr_prefix l : exists t, l = cstr l ++ t /\ (t = [] \/ exists t', t = 0 :: t').
Proof.
  induction l as [|c l IH]; cbn; [exists []; auto|]. destruct (c =? 0) eqn:E.
  - exists (c :: l). split; [reflexivity|]. right. exists l. f_equal. lia.
  - destruct IH as (t & H1 & H2). exists t. split; [cbn; congruence|exact H2].
Qed.
Lemma cstr_id s : no_nul s -> cstr s = s.
Proof.
  unfold no_nul. induction s as [|c s IH]; cbn; [auto|]. intros H.
  destruct (c =? 0) eqn:E; [exfalso; apply H; left; lia|]. f_equal. apply IH. tauto.
Qed.
Lemma chomp_loop_pos s : forall i r q p, chomp_loop s i r q = Some p ->
  q = Some p \/ exists c, (i <= p)%nat /\ nth_error s (p - i) = Some c /\ eol c.
Proof.
  induction s as [|c s IH]; intros i r q p H; cbn in H; [auto|].
  assert (G : forall q' r', chomp_loop s (S i) r' q' = Some p ->
    q' = Some p \/ exists c0, (i <= p)%nat /\ nth_error (c :: s) (p - i) = Some c0 /\ eol c0).
  { intros q' r' H'. apply IH in H' as [|(c0 & L & Hc & He)]; [auto|]. right. exists c0.
    split; [lia|]. split; [|exact He]. replace (p - i)%nat with (S (p - S i)) by lia. exact Hc. }
  destruct (is_eol c) eqn:E.
  - apply G in H as [H|H]; [|auto]. destruct r; [auto|]. injection H as <-.
    right. exists c. rewrite Nat.sub_diag. apply is_eol_spec in E. auto.
  - apply G in H. auto.
Qed.
Lemma chomp_prefix s : exists t, s = chomp s ++ t /\ (t = [] \/ exists c t', t = c :: t' /\ eol c).
Proof.
  unfold chomp. destruct (chomp_loop s 0 false None) as [p|] eqn:E.
  - apply chomp_loop_pos in E as [E|(c & _ & Hc & He)]; [discriminate|]. rewrite Nat.sub_0_r in Hc.
    exists (skipn p s). split; [now rewrite firstn_skipn|]. right.
    apply nth_error_split in Hc as (l1 & l2 & -> & <-). rewrite skipn_exact. eauto.
  - exists []. rewrite app_nil_r. auto.
Qed.
Lemma no_nul_prefix a b : no_nul (a ++ b) -> no_nul a.
Proof. unfold no_nul. intros H X. apply H. apply in_or_app. auto. Qed.
Lemma chomp_no_nul s : no_nul s -> no_nul (chomp s).
Proof. intros H. destruct (chomp_prefix s) as (t & E & _). rewrite E in H. now apply no_nul_prefix in H. Qed.

Lemma slurp_file_spec E p w :
  match slurp_file E p w with
  | (Ok (Some d), w') => exists ino, e_open E p = Some ino /\ e_kind E ino <> KOther /\ d = w_files w ino /\ w_files w' = w_files w
  | (Ok None, w') => w_files w' = w_files w
  | (Halt, w') => w_files w' = w_files w
  | _ => False
  end.
Proof.
  unfold slurp_file. destruct (e_open E p) as [ino|]; [|reflexivity].
  unfold bind at 1, fd_size.
  assert (G : forall w1, w_files w1 = w_files w -> e_kind E ino <> KOther ->
    match ('(ok, data) <- readall ino 0 (blen (w_files w ino));; ret (if (ok : bool) then Some data else None)) w1 with
    | (Ok (Some d), w') => exists ino0, Some ino = Some ino0 /\ e_kind E ino0 <> KOther /\ d = w_files w ino0 /\ w_files w' = w_files w
    | (Ok None, w') => w_files w' = w_files w
    | (Halt, w') => w_files w' = w_files w
    | _ => False end).
  { intros w1 Hw HK. unfold bind, readall.
    pose proof (preadall_total ino (blen (w_files w ino)) 0 w1) as HP.
    destruct (preadall ino (blen (w_files w ino)) 0 w1) as [[[ok d]| | |] w2]; try contradiction.
    - destruct HP as ((ev & _ & ->) & HR). cbn. destruct ok; [|exact Hw].
      exists ino. split; [reflexivity|]. split; [exact HK|]. split; [|exact Hw].
      unfold read_result in HR. destruct HR as [HR1 HR2]. rewrite Hw in HR2.
      destruct (N.eq_dec (blen (w_files w ino)) 0) as [EZ|EZ].
      + unfold blen in *. destruct d, (w_files w ino); cbn in *; try lia; reflexivity.
      + apply (file_has_unique (w_files w ino) 0); [exact (HR2 EZ)|exists [], []; rewrite app_nil_r; auto|unfold blen in *; lia].
    - subst. exact Hw. }
  destruct (e_kind E ino) eqn:EK; [| |reflexivity].
  all: unfold bind at 1, alloc.
  all: destruct (w_alloc w) as [|[|] al]; cbn [negb]; [apply G; [reflexivity|discriminate]|apply G; [reflexivity|discriminate]|reflexivity].
Qed.

(** getenv and argument strings are C strings. *)
Definition env_strings (E : env) : Prop := forall v s, e_getenv E v = Some s -> no_nul s.

Lemma keyspec_buf_spec E ko spec w : no_nul spec -> env_strings E -> length ko = 32%nat ->
  match encrypt_parse_keyspec_buf E ko spec w with
  | (Ok (true, out), w') => w_files w' = w_files w /\ exists s, key_text E w spec s /\ length s = 64%nat /\ hex_denotes s out
  | (Ok (false, out), w') => w_files w' = w_files w /\ (out = ko \/ out = repeat 0 32) /\
       (forall s, key_text E w spec s -> length s = 64%nat -> ~ Forall is_hex s -> (exists p, spec = bs "file:" ++ p) \/ out = repeat 0 32)
  | (Halt, w') => w_files w' = w_files w
  | _ => False
  end.
Proof.
  intros Hn HE Lk. unfold encrypt_parse_keyspec_buf, keyspec_src.
  assert (DK : forall s w', no_nul s -> key_text E w spec s -> w_files w' = w_files w ->
    (forall s2, key_text E w spec s2 -> s2 = s) ->
    match (ret (decode_key_buf ko s)) w' with
    | (Ok (true, out), w') => w_files w' = w_files w /\ exists s, key_text E w spec s /\ length s = 64%nat /\ hex_denotes s out
    | (Ok (false, out), w') => w_files w' = w_files w /\ (out = ko \/ out = repeat 0 32) /\
       (forall s, key_text E w spec s -> length s = 64%nat -> ~ Forall is_hex s -> (exists p, spec = bs "file:" ++ p) \/ out = repeat 0 32)
    | (Halt, w') => w_files w' = w_files w
    | _ => False end).
  { intros s w' Hs Hk Hw Hu. unfold ret. destruct (decode_key_buf ko s) as [ok out] eqn:ED.
    apply decode_key_buf_spec in ED as (L & HI & HT & HF); auto. destruct ok.
    - split; [exact Hw|]. exists s. split; [exact Hk|]. split; [apply HI; reflexivity|auto].
    - specialize (HF eq_refl). split; [exact Hw|]. split; [destruct (Nat.eqb (length s) 64); auto|].
      intros s2 Hk2 L2 _. right. rewrite (Hu _ Hk2) in L2. rewrite L2 in HF. exact HF. }
  destruct (startswith spec (bs "key:")) eqn:E1.
  { pose proof (startswith_skip _ _ E1) as ES. change (length (bs "key:")) with 4%nat in ES.
    apply DK; auto; [|now apply kt_lit|].
    - intros X. apply Hn. rewrite ES. apply in_or_app. auto.
    - intros s2 [s3 H3|v s3 H3|p ino H3]; rewrite ES in H3; try discriminate H3.
      now apply app_inv_head in H3. }
  destruct (startswith spec (bs "env:")) eqn:E2.
  { pose proof (startswith_skip _ _ E2) as ES. change (length (bs "env:")) with 4%nat in ES.
    destruct (e_getenv E (skipn 4 spec)) as [s|] eqn:EG.
    - apply DK; auto; [now apply (HE _ _ EG)|now apply kt_env with (skipn 4 spec)|].
      intros s2 [s3 H3|v s3 H3 H4|p ino H3]; rewrite ES in H3; try discriminate H3.
      apply app_inv_head in H3. congruence.
    - cbn. split; [reflexivity|]. split; [auto|].
      intros s2 [s3 H3|v s3 H3 H4|p ino H3]; rewrite ES in H3; try discriminate H3.
      apply app_inv_head in H3. congruence. }
  destruct (startswith spec (bs "file:")) eqn:E3.
  { pose proof (startswith_skip _ _ E3) as ES. change (length (bs "file:")) with 5%nat in ES.
    unfold bind. pose proof (slurp_file_spec E (skipn 5 spec) w) as HS.
    destruct (slurp_file E (skipn 5 spec) w) as [[[d|]| | |] w1]; try contradiction.
    - destruct HS as (ino & HO & HK & -> & Hw). apply DK; auto.
      + apply chomp_no_nul, cstr_no_nul.
      + now apply kt_file with (skipn 5 spec).
      + intros s2 [s3 H3|v s3 H3 H4|p ino2 H3 H4 H5]; rewrite ES in H3; try discriminate H3.
        apply app_inv_head in H3. congruence.
    - cbn. split; [exact HS|]. split; [auto|]. intros. left. exists (skipn 5 spec). exact ES.
    - exact HS. }
  cbn. split; [reflexivity|]. split; [auto|].
  intros s2 [s3 H3|v s3 H3 H4|p ino H3]; subst; exfalso.
  - assert (T : startswith (bs "key:" ++ s3) (bs "key:") = true) by (apply startswith_spec; eauto). congruence.
  - assert (T : startswith (bs "env:" ++ v) (bs "env:") = true) by (apply startswith_spec; eauto). congruence.
  - assert (T : startswith (bs "file:" ++ p) (bs "file:") = true) by (apply startswith_spec; eauto). congruence.
Qed.

(** Literal and environment keys are accepted exactly when they are 64 hex digits. *)
Lemma keyspec_literal E ko spec s w : no_nul spec -> env_strings E -> length ko = 32%nat ->
  (spec = bs "key:" ++ s \/ exists v, spec = bs "env:" ++ v /\ e_getenv E v = Some s) ->
  exists ok out, encrypt_parse_keyspec_buf E ko spec w = (Ok (ok, out), w) /\
    (ok = true <-> length s = 64%nat /\ Forall is_hex s) /\ (ok = true -> hex_denotes s out).
Proof.
  intros Hn HE Lk Hs. unfold encrypt_parse_keyspec_buf, keyspec_src.
  assert (SW : forall a t, startswith (a ++ t) a = true) by (intros; apply startswith_spec; eauto).
  destruct Hs as [->|(v & -> & EG)].
  - rewrite SW. change (skipn 4 (bs "key:" ++ s)) with s.
    destruct (decode_key_buf ko s) as [ok out] eqn:ED. exists ok, out. split; [reflexivity|].
    apply decode_key_buf_spec in ED as (_ & HI & HT & _); auto. intros X; apply Hn, in_or_app; auto.
  - change (startswith (bs "env:" ++ v) (bs "key:")) with false. rewrite SW.
    change (skipn 4 (bs "env:" ++ v)) with v. rewrite EG.
    destruct (decode_key_buf ko s) as [ok out] eqn:ED. exists ok, out. split; [reflexivity|].
    apply decode_key_buf_spec in ED as (_ & HI & HT & _); auto. now apply (HE v).
Qed.

(** A key file with one line. *)
Lemma key_file_text t e j : Forall (fun c => ~ eol c) t -> no_nul t -> Forall eol e -> j = [] \/ (exists j', j = 0 :: j') ->
  chomp (cstr (t ++ e ++ j)) = t.
Proof.
  intros Ft Nt Fe Hj.
  assert (Ec : cstr (t ++ e ++ j) = t ++ e).
  { assert (N2 : no_nul (t ++ e)).
    { intros X. apply in_app_or in X as [X|X]; [now apply Nt|].
      rewrite Forall_forall in Fe. destruct (Fe _ X); lia. }
    rewrite app_assoc. destruct Hj as [->|[j' ->]].
    - rewrite app_nil_r. now apply cstr_id.
    - revert N2. generalize (t ++ e). unfold no_nul. induction l as [|c l IH]; intros N2; [reflexivity|].
      cbn. destruct (c =? 0) eqn:E; [exfalso; apply N2; left; lia|]. f_equal. apply IH. intros X. apply N2. now right. }
  rewrite Ec. now apply chomp_trailing.
Qed.

Lemma keyspec_file E ko p ino t e j w : no_nul p -> env_strings E -> length ko = 32%nat ->
  e_open E p = Some ino -> e_kind E ino <> KOther ->
  w_files w ino = t ++ e ++ j -> Forall (fun c => ~ eol c) t -> no_nul t -> Forall eol e -> j = [] \/ (exists j', j = 0 :: j') ->
  w_alloc w = [] -> error_free (w_io w) -> (length (w_files w ino) <= transfers (w_io w))%nat ->
  exists ok out w', encrypt_parse_keyspec_buf E ko (bs "file:" ++ p) w = (Ok (ok, out), w') /\
    (ok = true <-> length t = 64%nat /\ Forall is_hex t) /\ (ok = true -> hex_denotes t out).
Proof.
  intros Hn HE Lk HO HK HF Ft Nt Fe Hj HA EF TR.
  unfold encrypt_parse_keyspec_buf, keyspec_src.
  change (startswith (bs "file:" ++ p) (bs "key:")) with false.
  change (startswith (bs "file:" ++ p) (bs "env:")) with false.
  assert (SW : forall a t, startswith (a ++ t) a = true) by (intros; apply startswith_spec; eauto). rewrite SW.
  change (skipn 5 (bs "file:" ++ p)) with p.
  assert (HS : exists w', slurp_file E p w = (Ok (Some (w_files w ino)), w')).
  { pose proof (slurp_file_spec E p w) as HS. unfold slurp_file in *. rewrite HO in *.
    assert (FS : fd_size E ino w = (Ok (Some (blen (w_files w ino))), w))
      by (unfold fd_size; destruct (e_kind E ino); congruence).
    unfold bind in *. rewrite FS in *. unfold alloc in *. rewrite HA in *. cbn [negb] in *. unfold readall in *.
    destruct (preadall_progress ino (blen (w_files w ino)) 0 w) as (buf & w2 & HP); auto; [unfold blen; lia|unfold OFF_LIMIT; lia|unfold blen; lia|].
    rewrite HP in *. cbn in *. destruct HS as (ino2 & H1 & _ & -> & _). injection H1 as <-. eexists. reflexivity. }
  destruct HS as [w' HS]. unfold bind. rewrite HS, HF, key_file_text by assumption.
  destruct (decode_key_buf ko t) as [ok out] eqn:ED. exists ok, out, w'. split; [reflexivity|].
  apply decode_key_buf_spec in ED as (_ & HI & HT & _); auto.
Qed.
