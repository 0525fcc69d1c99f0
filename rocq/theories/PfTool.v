(** Proofs about csn-tool (C39, C41). *)
From Verif Require Import Base Lib SpecBasic SpecCrypto Utils Encrypt Tool SpecTool PfUtils PfBasic PfIO PfEncrypt PfKeyspec PfHttp2.
Ltac Zify.zify_post_hook ::= Z.div_mod_to_equations.
Local Open Scope N_scope.

(** ** Names *)
Lemma ends_with_iff s suf : ends_with s suf = true <-> exists b, s = b ++ suf.
Proof.
  unfold ends_with. rewrite andb_true_iff, beq_eq, Nat.leb_le. split.
  - intros (H & E). exists (firstn (length s - length suf) s). rewrite <- E at 2. now rewrite firstn_skipn.
  - intros (b & ->). rewrite app_length. split; [lia|]. replace (length b + length suf - length suf)%nat with (length b) by lia. apply skipn_exact.
Qed.
Lemma ends_with_false s suf : ends_with s suf = false -> ~ exists b, s = b ++ suf.
Proof. rewrite <- ends_with_iff. congruence. Qed.

Lemma base_of path : exists base, last_part path base /\ base = match strrchr path 47 with Some p => skipn (S p) path | None => path end /\ (no_nul path -> no_nul base).
Proof.
  pose proof (strrchr_spec path 47) as H. destruct (strrchr path 47) as [p|].
  - destruct H as (H1 & H2). exists (skipn (S p) path). split; [split; [exact H2|right; eauto]|]. split; [reflexivity|].
    intros Hn X. apply Hn. rewrite <- (firstn_skipn (S p) path). apply in_or_app. now right.
  - exists path. split; [split; [exact H|now left]|]. auto.
Qed.
Lemma last_part_unique path b1 b2 : last_part path b1 -> last_part path b2 -> b1 = b2.
Proof.
  intros (N1 & H1) (N2 & H2).
  assert (K : forall d1 d2 a b, ~ In 47 a -> ~ In 47 b -> d1 ++ [47] ++ a = d2 ++ [47] ++ b -> a = b).
  { intros d1. induction d1 as [|x d1 IH]; intros [|y d2] a b Na Nb E; cbn in E.
    - congruence.
    - injection E as _ ->. exfalso. apply Na, in_or_app. right. now left.
    - injection E as _ <-. exfalso. apply Nb, in_or_app. right. now left.
    - injection E as _ E. eapply (IH d2); eauto. }
  destruct H1 as [->|(d1 & ->)], H2 as [H2|(d2 & H2)]; auto.
  - exfalso. apply N1. rewrite H2. apply in_or_app. right. now left.
  - exfalso. apply N2. rewrite <- H2. apply in_or_app. right. now left.
  - eauto.
Qed.
Lemma firstn_eq {A} (a b : list A) n : length a = n -> firstn n (a ++ b) = a.
Proof. intros <-. apply firstn_exact. Qed.
Lemma hex_not_dot s d : hex_denotes s d -> ~ In 46 s.
Proof.
  induction 1 as [|h l a b s d Ha Hb Hs IH]; [intros []|].
  assert (K : forall c v, digit_value c v -> c <> 46).
  { intros c v [X|X] ->; apply nth_error_In in X; cbn in X; repeat (destruct X as [X|X]; [discriminate X|]); destruct X. }
  intros [X|[X|X]]; [apply (K _ _ Ha); auto|apply (K _ _ Hb); auto|auto].
Qed.
Lemma even64 : Nat.Even 64. Proof. exists 32%nat. reflexivity. Qed.
Lemma length_split {A} (l : list A) n : (n <= length l)%nat -> exists a b, l = a ++ b /\ length a = n.
Proof. intros H. exists (firstn n l), (skipn n l). split; [now rewrite firstn_skipn|]. rewrite firstn_length. lia. Qed.

Lemma chunk_names path id : no_nul path -> (chunk_id_from_path path = Some id <-> chunk_path path id \/ odd_path path id).
Proof.
  intros Hn. destruct (base_of path) as (base & HL & Eb & Nb). specialize (Nb Hn). unfold chunk_id_from_path. rewrite <- Eb.
  assert (Hex : forall hx t, base = hx ++ t -> length hx = 64%nat -> (parse_hex (firstn 64 base) = Some id <-> hex_denotes hx id)).
  { intros hx t -> L. rewrite firstn_eq by exact L. apply hex_denotes_iff; [eapply no_nul_prefix; eauto|]. rewrite L. exact even64. }
  cbv zeta. split.
  - destruct (negb (Nat.eqb (length base) 70) && negb (Nat.eqb (length base) 74))%bool eqn:E1; [discriminate|].
    destruct (negb (ends_with base (bs ".cacnk")) && negb (ends_with base (bs ".cacnk.enc")))%bool eqn:E2; [discriminate|]. intros HP.
    assert (Len : length base = 70%nat \/ length base = 74%nat). { apply andb_false_iff in E1 as [E|E]; apply negb_false_iff, Nat.eqb_eq in E; auto. }
    apply andb_false_iff in E2 as [E2|E2]; apply negb_false_iff, ends_with_iff in E2 as (b & E2).
    + destruct Len as [Len|Len]; rewrite E2, app_length in Len; cbn [length bs] in Len.
      * left. exists b. split; [cbn in Len; lia|]. split; [eapply Hex; eauto; cbn in Len; lia|]. left. now rewrite <- E2.
      * right. destruct (length_split b 64) as (hx & j & -> & Lh); [cbn in Len; lia|]. exists hx, j. rewrite app_length in Len. cbn in Len. rewrite <- app_assoc in E2.
        split; [exact Lh|]. split; [eapply Hex; eauto|]. split; [lia|]. now rewrite <- E2.
    + destruct Len as [Len|Len]; rewrite E2, app_length in Len; cbn [length bs] in Len.
      * exfalso. assert (Hb : length b = 60%nat) by (cbn in Len; lia).
        assert (HX : hex_denotes (b ++ bs ".cac") id). { eapply (Hex _ (bs "nk.enc")); [rewrite <- app_assoc; exact E2|rewrite app_length; cbn; lia|exact HP]. }
        apply hex_not_dot in HX. apply HX, in_or_app. right. now left.
      * left. exists b. split; [cbn in Len; lia|]. split; [eapply Hex; eauto; cbn in Len; lia|]. right. now rewrite <- E2.
  - assert (Go : forall hx t, base = hx ++ t -> length hx = 64%nat -> hex_denotes hx id -> (length base = 70%nat \/ length base = 74%nat) ->
       (ends_with base (bs ".cacnk") = true \/ ends_with base (bs ".cacnk.enc") = true) ->
       (if (negb (Nat.eqb (length base) 70) && negb (Nat.eqb (length base) 74))%bool then None
        else if (negb (ends_with base (bs ".cacnk")) && negb (ends_with base (bs ".cacnk.enc")))%bool then None else parse_hex (firstn 64 base)) = Some id).
    { intros hx t E L D Len En. replace (negb (Nat.eqb (length base) 70) && negb (Nat.eqb (length base) 74))%bool with false
        by (destruct Len as [->| ->]; reflexivity).
      replace (negb (ends_with base (bs ".cacnk")) && negb (ends_with base (bs ".cacnk.enc")))%bool with false by (destruct En as [->| ->]; now rewrite ?andb_false_r).
      eapply Hex; eauto. }
    intros [(hx & L & D & [X|X])|(hx & j & L & D & Lj & X)]; pose proof (last_part_unique _ _ _ HL X) as E.
    + apply (Go hx (bs ".cacnk")); auto; [left; rewrite E, app_length, L; reflexivity|left; apply ends_with_iff; eauto].
    + apply (Go hx (bs ".cacnk.enc")); auto; [right; rewrite E, app_length, L; reflexivity|right; apply ends_with_iff; eauto].
    + apply (Go hx (j ++ bs ".cacnk")); auto; [right; rewrite E, !app_length, L, Lj; reflexivity|left; apply ends_with_iff; exists (hx ++ j); now rewrite <- app_assoc].
Qed.

Lemma default_name input out : default_output input = Some out -> other_name input out.
Proof.
  unfold default_output. destruct (ends_with input (bs ".cacnk")) eqn:E1.
  - destruct (_ <? _); [discriminate|]. intros H. injection H as <-. apply ends_with_iff in E1 as (b & ->). exists b. left. split; [reflexivity|now rewrite <- app_assoc].
  - destruct (ends_with input (bs ".cacnk.enc")) eqn:E2; [|discriminate]. destruct (_ <? _); [discriminate|]. intros H. injection H as <-. apply ends_with_iff in E2 as (b & ->).
    exists b. right. split; [reflexivity|]. change (bs ".cacnk.enc") with (bs ".cacnk" ++ bs ".enc"). rewrite app_assoc, app_length. replace (_ + _ - 4)%nat with (length (b ++ bs ".cacnk")) by (cbn; lia). apply firstn_exact.
Qed.
Lemma app_inv_len {A} (a b c d : list A) : length b = length d -> a ++ b = c ++ d -> a = c /\ b = d.
Proof.
  intros L E. assert (La : length a = length c) by (apply (f_equal (@length A)) in E; rewrite !app_length in E; lia).
  split; [apply (f_equal (firstn (length a))) in E|apply (f_equal (skipn (length a))) in E].
  - now rewrite firstn_exact, La, firstn_exact in E.
  - now rewrite skipn_exact, La, skipn_exact in E.
Qed.
Lemma other_default input out : other_name input out -> blen input <= 4091 -> default_output input = Some out.
Proof.
  intros (b & [(-> & ->)|(-> & ->)]) L; unfold default_output.
  - replace (ends_with (b ++ bs ".cacnk") (bs ".cacnk")) with true by (symmetry; apply ends_with_iff; eauto). destruct (N.ltb_spec 4091 (blen (b ++ bs ".cacnk"))); [lia|]. now rewrite <- app_assoc.
  - destruct (ends_with (b ++ bs ".cacnk.enc") (bs ".cacnk")) eqn:E.
    { exfalso. apply ends_with_iff in E as (c & E). change (bs ".cacnk.enc") with (bs ".cac" ++ bs "nk.enc") in E. rewrite app_assoc in E. apply app_inv_len in E as (_ & E); [discriminate|reflexivity]. }
    replace (ends_with (b ++ bs ".cacnk.enc") (bs ".cacnk.enc")) with true by (symmetry; apply ends_with_iff; eauto).
    destruct (N.ltb_spec 4095 (blen (b ++ bs ".cacnk.enc"))); [lia|]. f_equal. change (bs ".cacnk.enc") with (bs ".cacnk" ++ bs ".enc").
    rewrite app_assoc, app_length. replace (_ + _ - 4)%nat with (length (b ++ bs ".cacnk")) by (cbn; lia). apply firstn_exact.
Qed.
Lemma other_unique input o1 o2 : other_name input o1 -> other_name input o2 -> o1 = o2.
Proof.
  assert (K : forall a b, a ++ bs ".cacnk" = b ++ bs ".cacnk.enc" -> False).
  { intros a b E. change (bs ".cacnk.enc") with (bs ".cac" ++ bs "nk.enc") in E. rewrite app_assoc in E. apply app_inv_len in E as (_ & E); [discriminate|reflexivity]. }
  intros (a & [(-> & ->)|(-> & ->)]) (b & [(E & ->)|(E & ->)]).
  - apply app_inv_tail in E. congruence.
  - destruct (K _ _ E).
  - symmetry in E. destruct (K _ _ E).
  - apply app_inv_tail in E. congruence.
Qed.

(** ** Content *)
Lemma xchacha_short key id data : xchacha key (firstn 24 id) data = xchacha key id data.
Proof.
  assert (A : firstn 16 (firstn 24 id) = firstn 16 id) by (now rewrite firstn_firstn).
  assert (B : firstn 8 (skipn 16 (firstn 24 id)) = firstn 8 (skipn 16 id)). { rewrite skipn_firstn_comm. now rewrite firstn_firstn. }
  unfold xchacha, xchacha_byte. rewrite A, B. reflexivity.
Qed.
Lemma length_tcrypt key id data : length (tcrypt key id data) = length data.
Proof.
  unfold tcrypt. set (n := N.to_nat (blen data mod M32)). rewrite app_length, length_encrypt_do, firstn_length, skipn_length.
  assert (n <= length data)%nat by (unfold n, blen; change M32 with 4294967296; lia). lia.
Qed.
Lemma tcrypt_invol key id data : tcrypt key id (tcrypt key id data) = data.
Proof.
  assert (L := length_tcrypt key id data). unfold tcrypt at 1. unfold blen. rewrite L. set (n := N.to_nat (N.of_nat (length data) mod M32)).
  assert (Hn : (n <= length data)%nat) by (unfold n; change M32 with 4294967296; lia).
  unfold tcrypt, blen. fold n. set (c := encrypt_restart key id).
  assert (Lc : length (fst (encrypt_do c (firstn n data))) = n) by (rewrite length_encrypt_do, firstn_length; lia).
  rewrite (firstn_eq _ _ n Lc). rewrite <- Lc at 2. rewrite skipn_exact, encrypt_do_invol, firstn_skipn. reflexivity.
Qed.
Lemma tcrypt_spec key id data : bytes_ok key -> length key = 32%nat -> bytes_ok id -> (24 <= length id)%nat -> is_crypted key id data (tcrypt key id data).
Proof.
  intros Hk Lk Hi Li. split; [apply length_tcrypt|]. intros Hl. unfold tcrypt. change M32 with 4294967296. rewrite N.mod_small by exact Hl.
  unfold blen. rewrite Nat2N.id, firstn_all, skipn_all, app_nil_r. destruct (encrypt_restart_for key id) as (A & B).
  destruct (encrypt_do_spec key id _ data Hk Lk Hi Li A) as (C & _); [rewrite B; unfold blen in Hl; change (2 ^ 38) with 274877906944; lia|].
  rewrite C, B, xchacha_from_0. unfold crypted. now rewrite xchacha_short.
Qed.
Lemma tcrypt_large key id data i : 4294967296 <= blen data -> blen data mod 4294967296 <= N.of_nat i -> byte_of (tcrypt key id data) i = byte_of data i.
Proof.
  intros Hl Hi. unfold tcrypt. change M32 with 4294967296. set (n := N.to_nat (blen data mod 4294967296)).
  assert (Hn : (n <= length data)%nat) by (unfold n, blen; lia). assert (Hni : (n <= i)%nat) by (unfold n; lia).
  unfold byte_of. rewrite nth_error_app2; rewrite length_encrypt_do, firstn_length, Nat.min_l by exact Hn; [|exact Hni].
  rewrite nth_error_skipn. f_equal. lia.
Qed.

(** ** One file *)
Lemma beq_sym a b : beq a b = beq b a.
Proof. destruct (beq a b) eqn:E1, (beq b a) eqn:E2; auto; rewrite ?beq_eq in *; subst; rewrite ?beq_refl in *; congruence. Qed.
Lemma write_loop_spec ev : forall out data r out' ev', write_loop out data ev = (r, out', ev') ->
  exists n, (n <= length data)%nat /\ out' = out ++ firstn n data /\ (r = IoDone -> n = length data).
Proof.
  induction ev as [|e ev IH]; intros out data r out' ev' H; (destruct data as [|x data]; cbn [write_loop] in H; [injection H as <- <- <-; exists O; rewrite app_nil_r; auto|]).
  - injection H as <- <- <-. exists O. cbn [firstn]. rewrite app_nil_r. split; [lia|]. split; [reflexivity|discriminate].
  - assert (St : forall r0, (r0, out, ev) = (r, out', ev') -> r0 <> IoDone -> exists n, (n <= length (x :: data))%nat /\ out' = out ++ firstn n (x :: data) /\ (r = IoDone -> n = length (x :: data))).
    { intros r0 X Hr. injection X as <- <- <-. exists O. cbn [firstn]. rewrite app_nil_r. split; [lia|]. split; [reflexivity|contradiction]. }
    destruct e as [m| | |]; [|now apply IH in H|apply (St IoFailed); [exact H|discriminate]|apply (St IoAssert); [exact H|discriminate]].
    cbv zeta in H. set (k := Nat.min (S m) (length (x :: data))) in *. apply IH in H as (n & A & B & C). rewrite skipn_length in *. assert (Hk : (k <= length (x :: data))%nat) by lia.
    exists (k + n)%nat. split; [lia|]. split; [rewrite B, <- app_assoc, <- firstn_skipn_add; reflexivity|]. intros X. apply C in X. lia.
Qed.

Definition still (w w' : tworld) : Prop := tw_fs w' = tw_fs w /\ tw_stdout w' = tw_stdout w /\ tw_stdin w' = tw_stdin w /\ tw_env w' = tw_env w.
Lemma still_refl w : still w w. Proof. repeat split. Qed.
Lemma still_trans w1 w2 w3 : still w1 w2 -> still w2 w3 -> still w1 w3.
Proof. intros (A & B & C & D) (A' & B' & C' & D'). repeat split; congruence. Qed.
Lemma tok_still w : exists b w', tok w = (Ok b, w') /\ still w w' /\ suffix (tw_ok w') (tw_ok w) /\ (b = false -> In false (tw_ok w)) /\ tw_io w' = tw_io w.
Proof.
  unfold tok. destruct (tw_ok w) as [|b r] eqn:E.
  - exists true, w. rewrite E. split; [reflexivity|]. split; [apply still_refl|]. split; [apply suffix_refl|]. split; [discriminate|reflexivity].
  - exists b, (tw_set_ok r w). split; [reflexivity|]. split; [repeat split|]. split; [exists [b]; reflexivity|]. split; [intros ->; now left|reflexivity].
Qed.
Lemma suffix_false r l : suffix r l -> In false r -> In false l.
Proof. intros (p & ->) H. apply in_or_app. now right. Qed.

Lemma tslurp_spec p w : exists r w', tslurp p w = (r, w') /\ still w w' /\ suffix (tw_ok w') (tw_ok w) /\ suffix (tw_io w') (tw_io w) /\
  match r with
  | Ok (Some d) => tw_fs w p = Some d /\ (transfers (tw_io w) <= transfers (tw_io w') + length d)%nat
  | Ok None | Halt => tw_fs w p = None \/ In false (tw_ok w) \/ ~ error_free (tw_io w) \/ exists d, tw_fs w p = Some d /\ (transfers (tw_io w) < length d)%nat
  | _ => False
  end /\ (forall d, tw_fs w p = Some d -> ~ In false (tw_ok w) -> error_free (tw_io w) -> (length d <= transfers (tw_io w))%nat -> r = Ok (Some d)).
Proof.
  unfold tslurp. destruct (tw_fs w p) as [d|] eqn:Ef.
  2:{ exists (Ok None), w. split; [reflexivity|]. split; [apply still_refl|]. do 2 (split; [apply suffix_refl|]). split; [now left|discriminate]. }
  destruct (tok_still w) as (b & w1 & T & S1 & S2 & S3 & S4). unfold tbind. rewrite T. destruct b; cbn [negb].
  2:{ exists (Ok None), w1. split; [reflexivity|]. split; [exact S1|]. split; [exact S2|]. split; [rewrite S4; apply suffix_refl|]. split; [auto|]. intros d' _ X. destruct (X (S3 eq_refl)). }
  destruct (read_loop d (blen d) (tw_io w1) []) as [[r got] ev] eqn:ER.
  pose proof (read_loop_spec _ _ _ _ _ _ _ ER) as HR. pose proof (read_loop_suffix _ _ _ _ _ _ _ ER) as HS. rewrite S4 in ER, HS.
  pose proof (read_loop_progress (tw_io w) d (blen d) [] r got ev) as HP. pose proof (PfRead.read_loop_transfers _ _ _ _ _ _ _ ER) as HT.
  assert (Prog : error_free (tw_io w) -> (length d <= transfers (tw_io w))%nat -> r = IoDone) by (intros A B; apply HP; auto; unfold blen; lia).
  assert (St : still w (tw_set_io ev w1)) by (eapply still_trans; [exact S1|repeat split]).
  assert (Fail : r <> IoDone -> ~ error_free (tw_io w) \/ (exists d0, Some d = Some d0 /\ (transfers (tw_io w) < length d0)%nat)).
  { intros Hr. destruct (le_lt_dec (length d) (transfers (tw_io w))) as [Hle|Hlt]; [left; intros EF; auto|right; eauto]. }
  destruct r.
  - destruct HR as (_ & HR). assert (Hg : got = d). { rewrite HR. unfold blen. now rewrite Nat2N.id, firstn_all. }
    exists (Ok (Some got)), (tw_set_io ev w1). split; [reflexivity|]. split; [exact St|]. split; [exact S2|]. split; [exact HS|]. rewrite Hg. split; [|intros; congruence].
    split; [reflexivity|]. specialize (HT ltac:(discriminate)). rewrite Hg in HT. cbn [tw_io tw_set_io length] in *. lia.
  - exists (Ok None), (tw_set_io ev w1). split; [reflexivity|]. split; [exact St|]. split; [exact S2|]. split; [exact HS|]. split; [|intros d' E _ A B; injection E as <-; discriminate (Prog A B)].
    right. right. apply Fail. discriminate.
  - contradiction.
  - exists Halt, (tw_set_io ev w1). split; [reflexivity|]. split; [exact St|]. split; [exact S2|]. split; [exact HS|]. split; [|intros d' E _ A B; injection E as <-; discriminate (Prog A B)].
    right. right. apply Fail. discriminate.
Qed.

Definition out_of (input : bytes) (given : option bytes) : option bytes := match given with Some o => Some o | None => default_output input end.
Lemma out_of_name input given out : out_of input given = Some out -> output_name input given out.
Proof. destruct given; cbn; [congruence|apply default_name]. Qed.
(** A file was created or written to standard output, completely if [r] is [Ok true]. *)
Definition makes (key input : bytes) (given : option bytes) (r : outcome bool) (w w' : tworld) : Prop :=
  exists id out data n, chunk_id_from_path input = Some id /\ out_of input given = Some out /\ tw_fs w out = None /\ tw_fs w input = Some data /\
    (n <= length data)%nat /\ (r = Ok true -> n = length data) /\
    let d := firstn n (tcrypt key id data) in
    if beq out (bs "-") then tw_stdout w' = tw_stdout w ++ d /\ tw_fs w' = tw_fs w
    else tw_stdout w' = tw_stdout w /\ forall p, tw_fs w' p = fs_upd (tw_fs w) out d p.
Lemma encrypt_one_spec key input given w : exists r w', encrypt_one key input given w = (r, w') /\ r <> UB /\ tw_env w' = tw_env w /\ tw_stdin w' = tw_stdin w /\
  ((still w w' /\ (r = Ok true -> exists id out, chunk_id_from_path input = Some id /\ out_of input given = Some out /\ tw_fs w out <> None)) \/ makes key input given r w w') /\
  suffix (tw_ok w') (tw_ok w) /\ suffix (tw_io w') (tw_io w) /\
  (forall id out data, chunk_id_from_path input = Some id -> out_of input given = Some out -> tw_fs w input = Some data -> ~ In false (tw_ok w) -> error_free (tw_io w) ->
     (2 * length data <= transfers (tw_io w))%nat -> r = Ok true).
Proof.
  unfold encrypt_one. fold (out_of input given).
  assert (Stop : forall r, r <> UB -> r <> Ok true -> forall w', still w w' -> suffix (tw_ok w') (tw_ok w) -> suffix (tw_io w') (tw_io w) ->
    (forall id out data, chunk_id_from_path input = Some id -> out_of input given = Some out -> tw_fs w input = Some data -> ~ In false (tw_ok w) -> error_free (tw_io w) -> (2 * length data <= transfers (tw_io w))%nat -> False) ->
    exists r0 w0, (r, w') = (r0, w0) /\ r0 <> UB /\ tw_env w0 = tw_env w /\ tw_stdin w0 = tw_stdin w /\
      ((still w w0 /\ (r0 = Ok true -> exists id out, chunk_id_from_path input = Some id /\ out_of input given = Some out /\ tw_fs w out <> None)) \/ makes key input given r0 w w0) /\
      suffix (tw_ok w0) (tw_ok w) /\ suffix (tw_io w0) (tw_io w) /\
      (forall id out data, chunk_id_from_path input = Some id -> out_of input given = Some out -> tw_fs w input = Some data -> ~ In false (tw_ok w) -> error_free (tw_io w) -> (2 * length data <= transfers (tw_io w))%nat -> r0 = Ok true)).
  { intros r Hr Hr2 w' S1 S2 S3 No. exists r, w'. split; [reflexivity|]. split; [exact Hr|]. destruct S1 as (A & B & C & D). do 2 (split; [assumption|]).
    split; [left; split; [repeat split; auto|contradiction]|]. split; [exact S2|]. split; [exact S3|]. intros. exfalso. eauto. }
  destruct (chunk_id_from_path input) as [id|] eqn:Eid; [|apply Stop; try discriminate; [apply still_refl|apply suffix_refl|apply suffix_refl]].
  destruct (out_of input given) as [out|] eqn:Eo; [|apply Stop; try discriminate; [apply still_refl|apply suffix_refl|apply suffix_refl]].
  destruct (tw_fs w out) as [old|] eqn:Ef.
  { exists (Ok true), w. split; [reflexivity|]. split; [discriminate|]. do 2 (split; [reflexivity|]). split; [left; split; [apply still_refl|intros _; exists id, out; split; [reflexivity|]; split; [reflexivity|congruence]]|].
    do 2 (split; [apply suffix_refl|]). auto. }
  destruct (tok_still w) as (a & w1 & T1 & A1 & A2 & A3 & A4). unfold tbind at 1. rewrite T1. destruct a; cbn [negb].
  2:{ apply (Stop (Ok false) ltac:(discriminate) ltac:(discriminate) w1 A1 A2); [rewrite A4; apply suffix_refl|]. intros ? ? ? _ _ _ X. destruct (X (A3 eq_refl)). }
  destruct (tslurp_spec input w1) as (b & w2 & T2 & B1 & B2 & B3 & B4 & B5). unfold tbind at 1. rewrite T2.
  assert (Fs1 : tw_fs w1 = tw_fs w) by apply A1. rewrite Fs1 in B4, B5. rewrite A4 in B3, B4, B5.
  assert (NoB : b <> Ok (tw_fs w input) -> forall data, tw_fs w input = Some data -> ~ In false (tw_ok w) -> error_free (tw_io w) -> (2 * length data <= transfers (tw_io w))%nat -> False).
  { intros Hb data Hd Hok Hio Ht. apply Hb. rewrite Hd. apply B5; auto; [|lia]. intros X. apply Hok. eapply suffix_false; eauto. }
  assert (S12 : still w w2) by (eapply still_trans; eauto). assert (O12 : suffix (tw_ok w2) (tw_ok w)) by (eapply suffix_trans; eauto).
  destruct b as [[data|]| | |]; cbn match; [|..].
  2:{ apply (Stop (Ok false) ltac:(discriminate) ltac:(discriminate) w2 S12 O12 B3). intros id0 out0 data0 _ _ Hd. apply (NoB ltac:(congruence) data0); auto. }
  2:{ contradiction. } 2:{ contradiction. }
  2:{ apply (Stop Halt ltac:(discriminate) ltac:(discriminate) w2 S12 O12 B3). intros id0 out0 data0 _ _ Hd. apply (NoB ltac:(congruence) data0); auto. }
  destruct B4 as (Hd & Hcost).
  destruct (tok_still w2) as (e & w3 & T3 & C1 & C2 & C3 & C4). unfold tbind at 1. rewrite T3.
  assert (S13 : still w w3) by (eapply still_trans; eauto). assert (O13 : suffix (tw_ok w3) (tw_ok w)) by (eapply suffix_trans; eauto). assert (I13 : suffix (tw_io w3) (tw_io w)) by (rewrite C4; exact B3).
  destruct e; cbn [negb].
  2:{ apply (Stop (Ok false) ltac:(discriminate) ltac:(discriminate) w3 S13 O13 I13). intros ? ? ? _ _ _ X. destruct X. eapply suffix_false; [exact O12|auto]. }
  assert (Open : exists o w4, topen_out out w3 = (Ok o, w4) /\ tw_stdout w4 = tw_stdout w /\ tw_stdin w4 = tw_stdin w /\ tw_env w4 = tw_env w /\ tw_io w4 = tw_io w3 /\ suffix (tw_ok w4) (tw_ok w) /\
     (o = false -> In false (tw_ok w)) /\ (if (beq out (bs "-") || negb o)%bool then tw_fs w4 = tw_fs w else forall p, tw_fs w4 p = fs_upd (tw_fs w) out [] p)).
  { unfold topen_out. destruct S13 as (F1 & F2 & F3 & F4). destruct (beq out (bs "-")) eqn:Eq.
    - exists true, w3. split; [reflexivity|]. do 4 (split; [auto|]). split; [exact O13|]. split; [discriminate|]. cbn [orb]. exact F1.
    - destruct (tok_still w3) as (o & w4 & T4 & (D1 & D1b & D1c & D1d) & D2 & D3 & D4). unfold tbind. rewrite T4. assert (Hf : o = false -> In false (tw_ok w)) by (intros X; eapply suffix_false; [exact O13|auto]).
      destruct o; cbn [negb].
      + exists true. eexists. split; [reflexivity|]. cbn [tw_stdout tw_stdin tw_env tw_io tw_ok tw_fs tw_set_fs]. do 4 (split; [congruence|]). split; [eapply suffix_trans; eauto|]. split; [discriminate|]. cbn [orb negb]. intros p. now rewrite D1, F1.
      + exists false, w4. split; [reflexivity|]. do 4 (split; [congruence|]). split; [eapply suffix_trans; eauto|]. split; [auto|]. cbn. congruence. }
  destruct Open as (o & w4 & T4 & P1 & P2 & P3 & P4 & P5 & P6 & P7). unfold tbind. rewrite T4. destruct o; cbn [negb] in *.
  2:{ rewrite orb_true_r in P7. apply (Stop (Ok false) ltac:(discriminate) ltac:(discriminate) w4); [repeat split; auto|exact P5|rewrite P4; exact I13|]. intros ? ? ? _ _ _ X. destruct (X (P6 eq_refl)). }
  rewrite orb_false_r in P7. unfold twriteall.
  set (cur := if beq out (bs "-") then _ else _). assert (Hcur : cur = if beq out (bs "-") then tw_stdout w else []).
  { unfold cur. destruct (beq out (bs "-")); [exact P1|]. rewrite P7. unfold fs_upd. now rewrite beq_refl. }
  destruct (write_loop cur (tcrypt key id data) (tw_io w4)) as [[r d] ev] eqn:EW.
  pose proof (write_loop_spec _ _ _ _ _ _ EW) as (n & N1 & N2 & N3). rewrite length_tcrypt in N1, N3.
  assert (HS : suffix ev (tw_io w)).
  { eapply suffix_trans; [|rewrite <- C4 in B3; exact B3]. rewrite <- P4. clear - EW. revert EW. generalize cur, (tcrypt key id data). induction (tw_io w4) as [|x l IH]; intros c dd E; (destruct dd; cbn [write_loop] in E; [injection E as _ _ <-; apply suffix_refl|]).
    - injection E as _ _ <-. apply suffix_refl.
    - destruct x; [apply IH in E|apply IH in E|injection E as _ _ <-|injection E as _ _ <-]; try (now apply suffix_cons); apply suffix_cons, suffix_refl. }
  set (wf := if beq out (bs "-") then _ else _).
  assert (Hres : exists res, (match r with IoDone => (Ok true, wf) | IoFailed => (Ok false, wf) | IoAssert => (Abort, wf) | IoHalt => (Halt, wf) end) = (res, wf) /\ res <> UB /\ (res = Ok true <-> r = IoDone)).
  { destruct r; eexists; (split; [reflexivity|]; split; [discriminate|]; split; congruence). }
  destruct Hres as (res & E1 & E2 & E3). exists res, wf. split; [exact E1|]. split; [exact E2|].
  assert (Hwf : tw_env wf = tw_env w4 /\ tw_stdin wf = tw_stdin w4 /\ tw_ok wf = tw_ok w4 /\ tw_io wf = ev) by (unfold wf; destruct (beq out (bs "-")); auto).
  destruct Hwf as (W1 & W2 & W3 & W4). split; [congruence|]. split; [congruence|]. split; [|split; [rewrite W3; exact P5|]; split; [rewrite W4; exact HS|]].
  - right. exists id, out, data, n. do 4 (split; [auto|]). split; [exact N1|]. split; [intros X; apply N3, E3, X|]. cbv zeta. unfold wf. rewrite N2, Hcur. destruct (beq out (bs "-")).
    + split; [reflexivity|exact P7].
    + split; [exact P1|]. intros p. cbn [tw_fs tw_set_fs tw_set_io]. unfold fs_upd. destruct (beq p out) eqn:Ep; [reflexivity|]. rewrite P7. unfold fs_upd. now rewrite Ep.
  - intros _ _ data0 _ _ Hd0 Hok Hio Ht. assert (data0 = data) by congruence. subst data0. apply E3. apply (write_loop_progress (tw_io w4) cur (tcrypt key id data) r d ev); auto.
    + rewrite P4. eapply PfRead.error_free_suffix; eauto.
    + rewrite length_tcrypt, P4, C4. lia.
Qed.

(** ** Whole runs *)
Definition created (key : bytes) (P : bytes -> option bytes -> Prop) (full : Prop) (w w' : tworld) : Prop :=
  keeps w w' /\ tw_env w' = tw_env w /\
  forall p d, tw_fs w p = None -> tw_fs w' p = Some d ->
    exists input given id data n, P input given /\ chunk_id_from_path input = Some id /\ out_of input given = Some p /\ tw_fs w' input = Some data /\
      d = firstn n (tcrypt key id data) /\ (full -> n = length data).
Lemma created_still key P (full : Prop) w w' : still w w' -> created key P full w w'.
Proof. intros (A & _ & _ & B). split; [intros p d; now rewrite A|]. split; [exact B|]. intros p d X Y. rewrite A in Y. congruence. Qed.
Lemma created_trans key (P : bytes -> option bytes -> Prop) (full full' : Prop) w1 w2 w3 : full' -> created key P full' w1 w2 -> created key P full w2 w3 -> created key P full w1 w3.
Proof.
  intros Hf (A1 & A2 & A3) (B1 & B2 & B3). split; [intros p d X; apply B1, A1, X|]. split; [congruence|]. intros p d X Y.
  destruct (tw_fs w2 p) as [d2|] eqn:E.
  - destruct (A3 p d2 X E) as (i & g & id & data & n & C1 & C2 & C3 & C4 & C5 & C6). assert (d = d2) as -> by (apply B1 in E; congruence).
    exists i, g, id, data, n. split; [exact C1|]. split; [exact C2|]. split; [exact C3|]. split; [apply B1, C4|]. split; [exact C5|auto].
  - eauto.
Qed.
Lemma created_weaken key (P P' : bytes -> option bytes -> Prop) (full full' : Prop) w w' : (forall i g, P i g -> P' i g) -> (full' -> full) -> created key P full w w' -> created key P' full' w w'.
Proof.
  intros H1 H2 (A & B & C). split; [exact A|]. split; [exact B|]. intros p d X Y. destruct (C p d X Y) as (i & g & id & data & n & C1 & C2 & C3 & C4 & C5 & C6).
  exists i, g, id, data, n. split; [auto|]. split; [exact C2|]. split; [exact C3|]. split; [exact C4|]. split; [exact C5|auto].
Qed.
Lemma created_one key input given w r w' : encrypt_one key input given w = (r, w') -> created key (fun i g => i = input /\ g = given) (r = Ok true) w w' /\
  (r = Ok true -> exists id out, chunk_id_from_path input = Some id /\ out_of input given = Some out /\ (out <> bs "-" -> exists d, tw_fs w' out = Some d)).
Proof.
  intros E. destruct (encrypt_one_spec key input given w) as (r0 & w0 & E0 & _ & He & _ & H & _). rewrite E in E0. injection E0 as <- <-.
  destruct H as [(St & H)|(id & out & data & n & H1 & H2 & H3 & H4 & H5 & H6 & H7)].
  - split; [now apply created_still|]. intros Hr. destruct (H Hr) as (id & out & A & B & C). exists id, out. split; [exact A|]. split; [exact B|]. intros _. destruct St as (-> & _).
    destruct (tw_fs w out) as [d|]; [eauto|contradiction].
  - cbv zeta in H7. destruct (beq out (bs "-")) eqn:Eb.
    + destruct H7 as (_ & Hf). split; [split; [intros p d; now rewrite Hf|]; split; [exact He|]; intros p d X Y; rewrite Hf in Y; congruence|].
      intros _. exists id, out. split; [exact H1|]. split; [exact H2|]. intros X. apply beq_eq in Eb. contradiction.
    + destruct H7 as (_ & Hf). assert (Hin : tw_fs w' input = Some data). { rewrite Hf. unfold fs_upd. destruct (beq input out) eqn:Ei; [|exact H4]. apply beq_eq in Ei. congruence. }
      split.
      * split; [|split; [exact He|]].
        -- intros p d X. rewrite Hf. unfold fs_upd. destruct (beq p out) eqn:Ep; [|exact X]. apply beq_eq in Ep. congruence.
        -- intros p d X Y. rewrite Hf in Y. unfold fs_upd in Y. destruct (beq p out) eqn:Ep; [|congruence]. apply beq_eq in Ep. subst p. injection Y as <-.
           exists input, given, id, data, n. split; [split; reflexivity|]. split; [exact H1|]. split; [exact H2|]. split; [exact Hin|]. split; [reflexivity|exact H6].
      * intros _. exists id, out. split; [exact H1|]. split; [exact H2|]. intros _. rewrite Hf. unfold fs_upd. rewrite beq_refl. eauto.
Qed.

Lemma fgets_line n l rest : ~ In 10 l -> (length l < n)%nat -> fgets_split n (l ++ [10] ++ rest) = (l ++ [10], rest).
Proof.
  revert n. induction l as [|c l IH]; intros [|n] Hn Hl; cbn in Hl; try lia; cbn [app fgets_split].
  - reflexivity.
  - destruct (N.eqb_spec c 10) as [->|Hc]; [destruct Hn; now left|]. change (l ++ 10 :: rest) with (l ++ [10] ++ rest). rewrite IH; [reflexivity|intros X; apply Hn; now right|lia].
Qed.
Lemma created_lines key fuel : forall w r w', crypt_lines fuel key w = (r, w') ->
  created key (fun i g => g = None /\ no_nul i) (r = Ok true) w w' /\
  forall ls, input_lines (tw_stdin w) ls -> created key (fun i g => In i ls /\ g = None) (r = Ok true) w w' /\
    (r = Ok true -> Forall (fun l => exists id out d, chunk_id_from_path l = Some id /\ default_output l = Some out /\ tw_fs w' out = Some d) ls).
Proof.
  induction fuel as [|fuel IH]; intros w r w' H; cbn [crypt_lines] in H.
  { injection H as <- <-. split; [apply created_still, still_refl|]. intros ls _. split; [apply created_still, still_refl|discriminate]. }
  destruct (tw_stdin w) as [|c s] eqn:Es.
  { injection H as <- <-. split; [apply created_still, still_refl|]. intros ls (E & _). split; [apply created_still, still_refl|]. intros _. destruct ls as [|l ls]; [constructor|]. cbn in E. destruct l; discriminate. }
  destruct (fgets_split (N.to_nat 4095) (c :: s)) as [line rest] eqn:Ef.
  set (w1 := tw_set_stdin rest w) in *. unfold tbind in H.
  assert (St : forall key P (full : Prop) w2, created key P full w1 w2 -> created key P full w w2) by (intros k P f w2 X; exact X).
  destruct (encrypt_one_spec key (chomp (cstr line)) None w1) as (r1 & w2 & E1 & _ & _ & Hstd & _ & _ & _ & _). rewrite E1 in H.
  pose proof (created_one _ _ _ _ _ _ E1) as (C1 & C2).
  assert (Stop : forall r0, r0 <> Ok true -> (r0, w2) = (r, w') -> created key (fun i g => g = None /\ no_nul i) (r = Ok true) w w' /\
    forall ls, input_lines (c :: s) ls -> created key (fun i g => In i ls /\ g = None) (r = Ok true) w w' /\
    (r = Ok true -> Forall (fun l => exists id out d, chunk_id_from_path l = Some id /\ default_output l = Some out /\ tw_fs w' out = Some d) ls)).
  { intros r0 Hr X. injection X as -> <-. split; [apply St; eapply created_weaken; [| |exact C1]; [intros i g (-> & ->); split; [reflexivity|apply chomp_no_nul, cstr_no_nul]|contradiction]|].
    intros ls Hls. split; [|contradiction]. apply St. eapply created_weaken; [| |exact C1]; [|contradiction]. intros i g (-> & ->). split; [|reflexivity].
    destruct Hls as (E & F). destruct ls as [|l ls]; [discriminate E|]. inversion F as [|? ? (F1 & F2 & F3) F4]; subst.
    cbn [map concat] in E. rewrite <- app_assoc in E. rewrite E, fgets_line in Ef; [|intros Y; apply (F2 _ Y); now right|lia]. injection Ef as <- <-.
    left. rewrite cstr_id by (intros Y; apply in_app_or in Y as [Y|[Y|[]]]; [now apply F1|discriminate]). symmetry. apply chomp_trailing; [now apply Forall_forall|constructor; [now right|constructor]]. }
  destruct r1 as [[|]| | |]; cbn [negb] in H; [|apply (Stop (Ok false)); [discriminate|exact H]|apply (Stop Abort); [discriminate|exact H]|apply (Stop UB); [discriminate|exact H]|apply (Stop Halt); [discriminate|exact H]].
  apply IH in H as (D1 & D2). split.
  { apply St. eapply (created_trans _ _ _ (Ok true = Ok true)); [reflexivity| |exact D1]. eapply created_weaken; [| |exact C1]; [intros i g (-> & ->); split; [reflexivity|apply chomp_no_nul, cstr_no_nul]|auto]. }
  intros ls (E & F). destruct ls as [|l ls]; [discriminate E|]. inversion F as [|? ? (F1 & F2 & F3) F4]; subst.
  cbn [map concat] in E. rewrite <- app_assoc in E. rewrite E, fgets_line in Ef; [|intros Y; apply (F2 _ Y); now right|lia]. injection Ef as <- <-.
  assert (El : chomp (cstr (l ++ [10])) = l).
  { rewrite cstr_id by (intros Y; apply in_app_or in Y as [Y|[Y|[]]]; [now apply F1|discriminate]). apply chomp_trailing; [now apply Forall_forall|constructor; [now right|constructor]]. }
  rewrite El in *. destruct (D2 ls) as (D3 & D4); [split; [exact Hstd|exact F4]|]. split.
  - apply St. eapply (created_trans _ _ _ (Ok true = Ok true)); [reflexivity| |].
    + eapply created_weaken; [| |exact C1]; [intros i g (-> & ->); split; [now left|reflexivity]|auto].
    + eapply created_weaken; [| |exact D3]; [intros i g (X & ->); split; [now right|reflexivity]|auto].
  - intros Hr. constructor; [|auto]. destruct (C2 eq_refl) as (id & out & A & B & C). cbn [out_of] in B. exists id, out.
    assert (Hd : out <> bs "-"). { apply default_name in B as (b & [(_ & ->)|(_ & ->)]) ; intros X; apply (f_equal (@length N)) in X; rewrite app_length in X; cbn in X; lia. }
    destruct (C Hd) as (d & C3). destruct D3 as (D3 & _). exists d. split; [exact A|]. split; [exact B|]. now apply D3.
Qed.

(** ** Keys *)
Lemma key_text_unique w spec s1 s2 : tkey_text w spec s1 -> tkey_text w spec s2 -> s1 = s2.
Proof.
  intros [a A|v a A A2|p d A A2] [b B|v2 b B B2|p2 d2 B B2]; rewrite A in B; try discriminate B; apply app_inv_head in B; congruence.
Qed.
Lemma tool_key_unique w spec k1 k2 : tool_key w spec k1 -> tool_key w spec k2 -> k1 = k2.
Proof.
  intros (s1 & A1 & _ & A2) (s2 & B1 & _ & B2). rewrite (key_text_unique _ _ _ _ A1 B1) in A2. apply parse_hex_denotes in A2, B2. congruence.
Qed.
Lemma tool_key_ok w spec key : tool_key w spec key -> bytes_ok key /\ length key = 32%nat.
Proof. intros (s & _ & L & D). split; [eapply hex_denotes_ok; eauto|]. apply hex_denotes_length in D. lia. Qed.
Lemma decode_key_spec s key : no_nul s -> decode_key s = Some key -> length s = 64%nat /\ hex_denotes s key.
Proof.
  intros Hn. unfold decode_key, key_result. destruct (decode_key_buf key_buf_new s) as [ok out] eqn:E. apply decode_key_buf_spec in E as (_ & A & B & _); auto.
  destruct ok; [|discriminate]. intros X. injection X as <-. split; [now apply A|now apply B].
Qed.
Lemma tparse_spec spec w : no_nul spec -> tool_strings w -> exists r w', tparse_keyspec spec w = (r, w') /\ still w w' /\ suffix (tw_ok w') (tw_ok w) /\ suffix (tw_io w') (tw_io w) /\
  match r with Ok (Some key) => tool_key w spec key | Ok None | Halt => True | _ => False end /\
  (forall s key, spec = bs "key:" ++ s -> length s = 64%nat -> hex_denotes s key -> r = Ok (Some key) /\ w' = w).
Proof.
  intros Hn Hs. unfold tparse_keyspec, keyspec_src.
  assert (Lit : forall s w', tkey_text w spec s -> no_nul s -> still w w' -> match decode_key s with Some key => tool_key w spec key | None => True end).
  { intros s w' T N _. destruct (decode_key s) as [key|] eqn:E; [|exact Logic.I]. apply decode_key_spec in E as (A & B); auto. exists s. auto. }
  destruct (startswith spec (bs "key:")) eqn:E1.
  { apply startswith_skip in E1. change (length (bs "key:")) with 4%nat in E1. exists (Ok (decode_key (skipn 4 spec))), w. split; [reflexivity|]. split; [apply still_refl|]. do 2 (split; [apply suffix_refl|]). split.
    - eapply (Lit (skipn 4 spec) w); [now apply tk_lit|intros X; apply Hn; rewrite E1; apply in_or_app; now right|apply still_refl].
    - intros s key -> L D. split; [|reflexivity]. change (skipn 4 (bs "key:" ++ s)) with s. f_equal. unfold decode_key, key_result. 
      assert (Ns : no_nul s) by (intros X; apply Hn, in_or_app; now right).
      destruct (decode_key_buf key_buf_new s) as [ok out] eqn:E. apply decode_key_buf_spec in E as (_ & A & B & _); auto.
      assert (ok = true) as ->. { apply A. split; [exact L|]. apply parse_hex_accepts; [exact Ns|]. exists key. now apply parse_hex_denotes. }
      cbn [fst snd]. f_equal. specialize (B eq_refl). apply parse_hex_denotes in B, D. congruence. }
  assert (NoLit : forall s key (r : outcome (option bytes)) w', spec = bs "key:" ++ s -> length s = 64%nat -> hex_denotes s key -> r = Ok (Some key) /\ w' = w).
  { intros s key r w' X _ _. assert (Y : startswith spec (bs "key:") = true) by (apply startswith_spec; eauto). rewrite Y in E1. discriminate. }
  destruct (startswith spec (bs "env:")) eqn:E2.
  { apply startswith_skip in E2. change (length (bs "env:")) with 4%nat in E2. destruct (tw_env w (skipn 4 spec)) as [s|] eqn:Ev.
    - exists (Ok (decode_key s)), w. split; [reflexivity|]. split; [apply still_refl|]. do 2 (split; [apply suffix_refl|]). split; [|intros s0 k0; apply NoLit].
      eapply (Lit s w); [eapply tk_env; eauto|eauto|apply still_refl].
    - exists (Ok None), w. split; [reflexivity|]. split; [apply still_refl|]. do 2 (split; [apply suffix_refl|]). split; [exact Logic.I|intros s0 k0; apply NoLit]. }
  destruct (startswith spec (bs "file:")) eqn:E3.
  { apply startswith_skip in E3. change (length (bs "file:")) with 5%nat in E3. destruct (tslurp_spec (skipn 5 spec) w) as (r & w' & T & A & B & C & D & _). unfold tbind. rewrite T.
    destruct r as [[d|]| | |]; try contradiction.
    - destruct D as (D & _). exists (Ok (decode_key (chomp (cstr d)))), w'. split; [reflexivity|]. split; [exact A|]. do 2 (split; [assumption|]). split; [|intros s0 k0; apply NoLit].
      eapply (Lit _ w'); [eapply tk_file; eauto|apply chomp_no_nul, cstr_no_nul|exact A].
    - exists (Ok None), w'. split; [reflexivity|]. split; [exact A|]. do 2 (split; [assumption|]). split; [exact Logic.I|intros s0 k0; apply NoLit].
    - exists Halt, w'. split; [reflexivity|]. split; [exact A|]. do 2 (split; [assumption|]). split; [exact Logic.I|intros s0 k0; apply NoLit]. }
  exists (Ok None), w. split; [reflexivity|]. split; [apply still_refl|]. do 2 (split; [apply suffix_refl|]). split; [exact Logic.I|intros s0 k0; apply NoLit].
Qed.
Lemma chunk_id_ok path id : no_nul path -> chunk_id_from_path path = Some id -> bytes_ok id /\ length id = 32%nat.
Proof.
  intros Hn H. apply chunk_names in H; [|exact Hn]. assert (K : forall hx, length hx = 64%nat -> hex_denotes hx id -> bytes_ok id /\ length id = 32%nat).
  { intros hx L D. split; [eapply hex_denotes_ok; eauto|]. apply hex_denotes_length in D. lia. }
  destruct H as [(hx & L & D & _)|(hx & j & L & D & _)]; eauto.
Qed.

(** ** The program *)
Definition spec_of (argv : list bytes) : bytes := nth 2 argv [].
Definition accepted (path id : bytes) : Prop := chunk_path path id \/ odd_path path id.
(** Anything but crypting: nothing happens. *)
Definition tool_case (argv : list bytes) (w : tworld) (x : outcome N * tworld) : Prop :=
  (exists r w', x = (r, w') /\ still w w' /\ (r = Ok 0 -> forall spec i o, ~ crypt_args argv spec i o) /\ r <> UB) \/
  exists key w1, tool_key w (spec_of argv) key /\ still w w1 /\ suffix (tw_ok w1) (tw_ok w) /\ suffix (tw_io w1) (tw_io w) /\
    exists input given, crypt_args argv (spec_of argv) input given /\
    x = match input with
      | None => tbind (crypt_lines (S (length (tw_stdin w1))) key) (fun ok => tret (if (ok : bool) then 0 else 1)) w1
      | Some i => tbind (encrypt_one key i given) (fun ok => tret (if (ok : bool) then 0 else 1)) w1 end.
Lemma tool_main_cases argv w : Forall no_nul argv -> tool_strings w -> tool_case argv w (tool_main argv w).
Proof.
  intros Hn Hs. unfold tool_main.
  assert (No : forall r, r <> Ok 0 -> r <> UB -> forall w', still w w' -> tool_case argv w (r, w')).
  { intros r Hr Hu w' St. left. exists r, w'. split; [reflexivity|]. split; [exact St|]. split; [contradiction|exact Hu]. }
  destruct argv as [|prog [|cmd rest]]; [apply No; try discriminate; apply still_refl|apply No; try discriminate; apply still_refl|].
  destruct (beq cmd (bs "-h") || beq cmd (bs "--help"))%bool eqn:Eh.
  { left. exists (Ok 0), w. split; [reflexivity|]. split; [apply still_refl|]. split; [|discriminate]. intros _ spec i o (pr & E & _). cbn [app] in E. injection E as _ -> _. vm_compute in Eh. discriminate. }
  destruct (beq cmd (bs "crypt")) eqn:Ec.
  2:{ left. exists (Ok 0), w. split; [reflexivity|]. split; [apply still_refl|]. split; [|discriminate]. intros _ spec i o (pr & E & _). cbn [app] in E. injection E as _ -> _. rewrite beq_refl in Ec. discriminate. }
  apply beq_eq in Ec. subst cmd. cbn [skipn]. unfold do_crypt. destruct rest as [|spec rest]; [apply No; try discriminate; apply still_refl|].
  destruct (_ || _ || _)%bool eqn:E2; [apply No; try discriminate; apply still_refl|]. apply orb_false_iff in E2 as (E2 & _). apply orb_false_iff in E2 as (E2 & _). apply Nat.ltb_ge in E2.
  assert (Ns : no_nul spec) by (rewrite Forall_forall in Hn; apply Hn; cbn; auto).
  destruct (tparse_spec spec w Ns Hs) as (r & w1 & T & A & B & C & D & F). unfold tbind at 1. rewrite T.
  destruct r as [[key|]| | |]; try contradiction; [|apply (No (Ok 1) ltac:(discriminate) ltac:(discriminate) w1 A)|apply (No Halt ltac:(discriminate) ltac:(discriminate) w1 A)].
  destruct (tok_still w1) as (b & w2 & T2 & A2 & B2 & _ & C2). unfold tbind at 1. rewrite T2. destruct b; cbn [negb]; [|apply (No (Ok 1) ltac:(discriminate) ltac:(discriminate) w2); eapply still_trans; eauto].
  right. exists key, w2. split; [exact D|]. split; [eapply still_trans; eauto|]. split; [eapply suffix_trans; eauto|]. split; [rewrite C2; exact C|].
  destruct rest as [|input outs].
  - exists None, None. split; [exists prog; split; [reflexivity|auto]|]. reflexivity.
  - exists (Some input), (match outs with o :: _ => Some o | [] => None end). split; [|reflexivity]. exists prog. split; [|discriminate].
    destruct outs as [|o [|o2 outs]]; [reflexivity|reflexivity|cbn in E2; lia].
Qed.

Lemma crypt_args_unique argv s1 i1 o1 s2 i2 o2 : crypt_args argv s1 i1 o1 -> crypt_args argv s2 i2 o2 -> s1 = s2 /\ i1 = i2 /\ o1 = o2.
Proof.
  intros (p1 & E1 & N1) (p2 & E2 & N2). rewrite E1 in E2. destruct i1 as [i1|], i2 as [i2|]; cbn [app] in E2.
  - destruct o1, o2; try discriminate E2; injection E2; intros; subst; auto.
  - destruct o1; discriminate E2.
  - destruct o2; discriminate E2.
  - rewrite N1, N2 by reflexivity. injection E2; intros; subst; auto.
Qed.
Lemma crypt_args_no_nul argv spec input given : Forall no_nul argv -> crypt_args argv spec (Some input) given -> no_nul input.
Proof. intros H (p & -> & _). rewrite Forall_forall in H. apply H. cbn. auto. Qed.
(** What a run creates. *)
Definition of_run (argv : list bytes) (input : bytes) (given : option bytes) : Prop :=
  no_nul input /\ (crypt_args argv (spec_of argv) (Some input) given \/ crypt_args argv (spec_of argv) None None /\ given = None).
Lemma tool_created argv w : Forall no_nul argv -> tool_strings w -> let r := tool_main argv w in
  fst r <> UB /\ keeps w (snd r) /\ tw_env (snd r) = tw_env w /\
  forall p d, tw_fs w p = None -> tw_fs (snd r) p = Some d -> exists key, tool_key w (spec_of argv) key /\ created key (of_run argv) (fst r = Ok 0) w (snd r).
Proof.
  intros Hn Hs. cbv zeta. destruct (tool_main_cases argv w Hn Hs) as [(r & w' & -> & St & _ & Hr)|(key & w1 & Hk & St & _ & _ & input & given & Ha & ->)].
  - cbn [fst snd]. destruct (created_still [] (of_run argv) (r = Ok 0) w w' St) as (A & B & _). split; [exact Hr|]. split; [exact A|]. split; [exact B|]. intros p d X Y. destruct St as (F & _). congruence.
  - assert (Fin : forall r0 w2, created key (of_run argv) (r0 = Ok true) w w2 -> r0 <> UB ->
      let r := match r0 with Ok ok => (Ok (if (ok : bool) then 0 else 1), w2) | Abort => (Abort, w2) | UB => (UB, w2) | Halt => (Halt, w2) end in
      fst r <> UB /\ keeps w (snd r) /\ tw_env (snd r) = tw_env w /\ (forall p d, tw_fs w p = None -> tw_fs (snd r) p = Some d -> exists key, tool_key w (spec_of argv) key /\ created key (of_run argv) (fst r = Ok 0) w (snd r))).
    { intros r0 w2 C Hr. assert (C' := C). destruct C' as (C1 & C2 & _). destruct r0 as [[|]| | |]; cbn [fst snd]; (split; [congruence|]; split; [exact C1|]; split; [exact C2|]; intros; exists key; split; [exact Hk|]; eapply created_weaken; [| |exact C]; auto; discriminate). }
    assert (Sc : forall P (full : Prop) w2, created key P full w1 w2 -> created key P full w w2).
    { destruct St as (F & _ & _ & Fe). intros P full w2 (C1 & C2 & C3). unfold created, keeps in *. rewrite F in *. rewrite Fe in C2. auto. }
    destruct input as [i|].
    + destruct (encrypt_one_spec key i given w1) as (r0 & w2 & E1 & Hr & _). unfold tbind. rewrite E1. pose proof (created_one _ _ _ _ _ _ E1) as (C & _).
      assert (Ci : created key (of_run argv) (r0 = Ok true) w w2). { apply Sc. eapply created_weaken; [| |exact C]; [|auto]. intros i0 g0 (-> & ->). split; [eapply crypt_args_no_nul; eauto|now left]. }
      specialize (Fin r0 w2 Ci Hr). destruct r0; exact Fin.
    + unfold tbind. destruct (crypt_lines (S (length (tw_stdin w1))) key w1) as [r0 w2] eqn:E1. pose proof (created_lines _ _ _ _ _ E1) as (C & _).
      assert (Hr : r0 <> UB).
      { revert E1. generalize (S (length (tw_stdin w1))). clear. intros n. revert w1 r0 w2. induction n as [|n IH]; intros w r w2; cbn [crypt_lines]; [intros X; injection X as <- _; discriminate|].
        destruct (tw_stdin w); [intros X; injection X as <- _; discriminate|]. destruct (fgets_split _ _) as [line rest]. unfold tbind.
        destruct (encrypt_one_spec key (chomp (cstr line)) None (tw_set_stdin rest w)) as (r1 & w3 & E & Hu & _). rewrite E. destruct r1 as [[|]| | |]; cbn [negb]; try (intros X; injection X as <- _; congruence). apply IH. }
      assert (Ea : given = None) by (destruct Ha as (? & _ & X); auto). subst given.
      assert (Ci : created key (of_run argv) (r0 = Ok true) w w2). { apply Sc. eapply created_weaken; [| |exact C]; [|auto]. intros i0 g0 (-> & X). split; [exact X|right; auto]. }
      specialize (Fin r0 w2 Ci Hr). destruct r0; exact Fin.
Qed.

(** ** C39 *)
Lemma tool_keeps argv w : Forall no_nul argv -> tool_strings w -> fst (tool_main argv w) <> UB /\ keeps w (snd (tool_main argv w)).
Proof. intros A B. destruct (tool_created argv w A B) as (C & D & _). auto. Qed.
Lemma tool_outputs argv w p d : Forall no_nul argv -> tool_strings w -> let w' := snd (tool_main argv w) in
  tw_fs w p = None -> tw_fs w' p = Some d ->
  exists spec key input given id data c, tool_key w spec key /\ (crypt_args argv spec (Some input) given \/ crypt_args argv spec None None /\ given = None) /\
    (chunk_path input id \/ odd_path input id) /\ output_name input given p /\ tw_fs w' input = Some data /\ is_crypted key id data c /\
    (exists n, d = firstn n c) /\ (fst (tool_main argv w) = Ok 0 -> d = c).
Proof.
  intros A B w' X Y. destruct (tool_created argv w A B) as (_ & _ & _ & C). destruct (C p d X Y) as (key & Hk & _ & _ & D).
  destruct (D p d X Y) as (input & given & id & data & n & (D1 & D2) & D3 & D4 & D5 & D6 & D7). exists (spec_of argv), key, input, given, id, data, (tcrypt key id data).
  split; [exact Hk|]. split; [exact D2|]. split; [now apply chunk_names|]. split; [now apply out_of_name|]. split; [exact D5|]. split; [|split].
  - destruct (tool_key_ok _ _ _ Hk), (chunk_id_ok _ _ D1 D3). apply tcrypt_spec; auto. lia.
  - exists n. exact D6.
  - intros Hr. rewrite D6, (D7 Hr), <- (length_tcrypt key id data). apply firstn_all.
Qed.
(** One file named on the command line, exactly. *)
Lemma tool_one argv w w' spec input given : Forall no_nul argv -> tool_strings w -> crypt_args argv spec (Some input) given -> tool_main argv w = (Ok 0, w') ->
  exists key id out, tool_key w spec key /\ chunk_id_from_path input = Some id /\ out_of input given = Some out /\
    (tw_fs w out = None -> exists data, tw_fs w input = Some data /\
      if beq out (bs "-") then tw_stdout w' = tw_stdout w ++ tcrypt key id data else tw_fs w' out = Some (tcrypt key id data)).
Proof.
  intros A B Ha H. destruct (tool_main_cases argv w A B) as [(r & w2 & E & _ & N & _)|(key & w1 & Hk & St & _ & _ & i & g & Ha2 & E)]; rewrite H in E.
  - injection E as <- <-. destruct (N eq_refl _ _ _ Ha).
  - destruct (crypt_args_unique _ _ _ _ _ _ _ Ha Ha2) as (Es & <- & <-). rewrite <- Es in Hk. destruct (encrypt_one_spec key input given w1) as (r0 & w2 & E1 & _ & _ & _ & X & _). unfold tbind in E. rewrite E1 in E.
    destruct r0 as [[|]| | |]; try discriminate E. injection E as ->. destruct St as (F & Fo & _). exists key. rewrite <- F, <- Fo. destruct X as [(S2 & X)|(id & out & data & n & X1 & X2 & X3 & X4 & X5 & X6 & X7)].
    + destruct (X eq_refl) as (id & out & Y1 & Y2 & Y3). exists id, out. split; [exact Hk|]. split; [exact Y1|]. split; [exact Y2|]. contradiction.
    + exists id, out. split; [exact Hk|]. split; [exact X1|]. split; [exact X2|]. intros _. exists data. split; [exact X4|]. rewrite (X6 eq_refl), <- (length_tcrypt key id data), firstn_all in X7. cbv zeta in X7. destruct (beq out (bs "-")); [apply X7|].
      destruct X7 as (_ & X7). rewrite X7. unfold fs_upd. now rewrite beq_refl.
Qed.
Lemma other_chunk input out id : chunk_path input id -> other_name input out -> chunk_path out id /\ out <> bs "-".
Proof.
  intros (hx & L & D & H) Ho. split.
  2:{ destruct Ho as (b & [(_ & ->)|(_ & ->)]) ; intros X; apply (f_equal (@length N)) in X; rewrite app_length in X; cbn in X; lia. }
  exists hx. split; [exact L|]. split; [exact D|].
  assert (Mk : forall t t', last_part input (hx ++ t) -> (forall c, In c t' -> c <> 47) -> exists pre, input = pre ++ hx ++ t /\ last_part (pre ++ hx ++ t') (hx ++ t')).
  { intros t t' (A & B) Ht. assert (N' : ~ In 47 (hx ++ t')) by (intros X; apply in_app_or in X as [X|X]; [apply A, in_or_app; now left|now apply (Ht _ X)]).
    destruct B as [->|(dir & ->)]; [exists []; split; [reflexivity|split; [exact N'|now left]]|]. exists (dir ++ [47]). rewrite <- !app_assoc. split; [reflexivity|]. split; [exact N'|right; exists dir; reflexivity]. }
  assert (K1 : forall c, In c (bs ".cacnk.enc") -> c <> 47) by (intros c X; cbn in X; repeat (destruct X as [<-|X]; [discriminate|]); destruct X).
  assert (K2 : forall c, In c (bs ".cacnk") -> c <> 47) by (intros c X; cbn in X; repeat (destruct X as [<-|X]; [discriminate|]); destruct X).
  destruct H as [H|H].
  - right. destruct (Mk _ _ H K1) as (pre & E & R). assert (O2 : other_name input (pre ++ hx ++ bs ".cacnk.enc")) by (exists (pre ++ hx); left; rewrite <- !app_assoc; auto). now rewrite (other_unique _ _ _ Ho O2).
  - left. destruct (Mk _ _ H K2) as (pre & E & R). assert (O2 : other_name input (pre ++ hx ++ bs ".cacnk")) by (exists (pre ++ hx); right; rewrite <- !app_assoc; auto). now rewrite (other_unique _ _ _ Ho O2).
Qed.
Lemma chunk_path_unique path i1 i2 : no_nul path -> chunk_path path i1 -> chunk_path path i2 -> i1 = i2.
Proof. intros Hn A B. assert (chunk_id_from_path path = Some i1) by (apply chunk_names; auto). assert (chunk_id_from_path path = Some i2) by (apply chunk_names; auto). congruence. Qed.
Lemma tool_roundtrip argv1 argv2 w1 w1' w2 w2' spec1 spec2 key input enc id data :
  Forall no_nul argv1 -> Forall no_nul argv2 -> tool_strings w1 -> tool_strings w2 ->
  crypt_args argv1 spec1 (Some input) None -> crypt_args argv2 spec2 (Some enc) None -> tool_key w1 spec1 key -> tool_key w2 spec2 key ->
  chunk_path input id -> other_name input enc -> tw_fs w1 input = Some data -> tw_fs w1 enc = None ->
  tool_main argv1 w1 = (Ok 0, w1') ->
  tw_fs w2 enc = tw_fs w1' enc -> tw_fs w2 input = None -> tool_main argv2 w2 = (Ok 0, w2') ->
  tw_fs w2' input = Some data /\ exists c, tw_fs w1' enc = Some c /\ is_crypted key id data c.
Proof.
  intros N1 N2 S1 S2 A1 A2 K1 K2 HP HO Hd He R1 Hk Hi R2. destruct (other_chunk _ _ _ HP HO) as (HP2 & Hdash).
  assert (HO2 : other_name enc input). { destruct HO as (b & [(-> & ->)|(-> & ->)]); exists b; auto. }
  destruct (other_chunk _ _ _ HP2 HO2) as (_ & Hdash2).
  assert (Ni := crypt_args_no_nul _ _ _ _ N1 A1). assert (Ne := crypt_args_no_nul _ _ _ _ N2 A2).
  destruct (tool_one _ _ _ _ _ _ N1 S1 A1 R1) as (k1 & id1 & o1 & B1 & B2 & B3 & B4). rewrite (tool_key_unique _ _ _ _ B1 K1) in *.
  assert (id1 = id) as ->. { assert (chunk_id_from_path input = Some id) by (apply chunk_names; auto). congruence. }
  cbn [out_of] in B3. apply default_name in B3. rewrite (other_unique _ _ _ B3 HO) in B4. destruct (B4 He) as (dat & C1 & C2). assert (dat = data) as -> by congruence. apply beq_neq in Hdash. rewrite Hdash in C2.
  destruct (tool_one _ _ _ _ _ _ N2 S2 A2 R2) as (k2 & id2 & o2 & D1 & D2 & D3 & D4). rewrite (tool_key_unique _ _ _ _ D1 K2) in *.
  assert (id2 = id) as ->. { assert (chunk_id_from_path enc = Some id) by (apply chunk_names; auto). congruence. }
  cbn [out_of] in D3. apply default_name in D3. rewrite (other_unique _ _ _ D3 HO2) in D4. destruct (D4 Hi) as (dat & E1 & E2). apply beq_neq in Hdash2. rewrite Hdash2 in E2.
  rewrite Hk, C2 in E1. injection E1 as <-. rewrite tcrypt_invol in E2. split; [exact E2|]. exists (tcrypt key id data). split; [exact C2|].
  destruct (tool_key_ok _ _ _ K1), (chunk_id_ok _ _ Ni B2). apply tcrypt_spec; auto. lia.
Qed.
(** Lists of files. *)
Lemma tool_lines argv w w' spec ls : Forall no_nul argv -> tool_strings w -> crypt_args argv spec None None -> input_lines (tw_stdin w) ls -> tool_main argv w = (Ok 0, w') ->
  exists key, tool_key w spec key /\ Forall (fun l => exists id out d, (chunk_path l id \/ odd_path l id) /\ other_name l out /\ tw_fs w' out = Some d /\
      (tw_fs w out = None -> exists l' id' data, In l' ls /\ (chunk_path l' id' \/ odd_path l' id') /\ other_name l' out /\ tw_fs w' l' = Some data /\ is_crypted key id' data d)) ls /\
    forall p d, tw_fs w p = None -> tw_fs w' p = Some d -> exists l, In l ls /\ other_name l p.
Proof.
  intros A B Ha Hl H. destruct (tool_main_cases argv w A B) as [(r & w2 & E & _ & N & _)|(key & w1 & Hk & St & _ & _ & i & g & Ha2 & E)]; rewrite H in E.
  - injection E as <- <-. destruct (N eq_refl _ _ _ Ha).
  - destruct (crypt_args_unique _ _ _ _ _ _ _ Ha Ha2) as (Es & <- & <-). rewrite <- Es in Hk. unfold tbind in E. destruct (crypt_lines _ key w1) as [r0 w2] eqn:EL.
    destruct r0 as [[|]| | |]; try discriminate E. injection E as ->. destruct St as (F & _ & Fi & _). pose proof (created_lines _ _ _ _ _ EL) as (_ & C). rewrite <- Fi in Hl. destruct (C ls Hl) as ((_ & _ & C1) & C2). specialize (C2 eq_refl).
    assert (Nl : forall l, In l ls -> no_nul l) by (intros l X; destruct Hl as (_ & Hl); rewrite Forall_forall in Hl; apply (Hl l X)).
    exists key. split; [exact Hk|]. rewrite <- F. split.
    + rewrite Forall_forall in *. intros l Hin. destruct (C2 l Hin) as (id & out & d & D1 & D2 & D3). exists id, out, d. split; [apply chunk_names; auto|]. split; [now apply default_name|]. split; [exact D3|]. intros Hnew.
      destruct (C1 out d Hnew D3) as (i & g & id' & data & n & (G1 & ->) & G2 & G3 & G4 & G5 & G6). exists i, id', data. split; [exact G1|]. split; [apply chunk_names; auto|]. split; [now apply default_name|]. split; [exact G4|].
      rewrite G5, (G6 eq_refl), <- (length_tcrypt key id' data), firstn_all. destruct (tool_key_ok _ _ _ Hk), (chunk_id_ok _ _ (Nl _ G1) G2). apply tcrypt_spec; auto. lia.
    + intros p d X Y. destruct (C1 p d X Y) as (i & g & id' & data & n & (G1 & ->) & G2 & G3 & _). exists i. split; [exact G1|now apply default_name].
Qed.
(** A run with a literal key succeeds if nothing fails. *)
Lemma tool_succeeds argv w spec input given id data s key : Forall no_nul argv -> tool_strings w -> crypt_args argv spec (Some input) given ->
  spec = bs "key:" ++ s -> length s = 64%nat -> hex_denotes s key -> chunk_path input id -> (given = None -> blen input <= 4091) -> tw_fs w input = Some data ->
  ~ In false (tw_ok w) -> error_free (tw_io w) -> (2 * length data <= transfers (tw_io w))%nat -> fst (tool_main argv w) = Ok 0.
Proof.
  intros A B Ha -> Ls Hx HP Hlen Hd Hok Hio Ht.
  assert (Ni := crypt_args_no_nul _ _ _ _ A Ha). destruct Ha as (prog & -> & _). unfold tool_main. cbn [app]. change (beq (bs "crypt") (bs "-h") || beq (bs "crypt") (bs "--help"))%bool with false. cbv iota. rewrite beq_refl. cbn [skipn]. unfold do_crypt.
  assert (Len : (2 <? length (input :: match given with Some o => [o] | None => [] end))%nat = false) by (destruct given; reflexivity). rewrite Len.
  change (beq (bs "key:" ++ s) (bs "-h") || beq (bs "key:" ++ s) (bs "--help"))%bool with false. cbn [orb]. replace (beq (bs "key:" ++ s) (bs "-h")) with false by reflexivity. replace (beq (bs "key:" ++ s) (bs "--help")) with false by reflexivity. cbn [orb].
  destruct (tparse_spec (bs "key:" ++ s) w) as (r & w1 & T & _ & _ & _ & _ & F); [rewrite Forall_forall in A; apply A; cbn; auto|exact B|]. destruct (F s key eq_refl Ls Hx) as (-> & ->). unfold tbind at 1. rewrite T.
  destruct (tok_still w) as (b & w2 & T2 & (S1 & S2 & S3 & S4) & B2 & B3 & C2). unfold tbind at 1. rewrite T2. destruct b; cbn [negb]; [|destruct (Hok (B3 eq_refl))].
  replace (match (match given with Some o => [o] | None => [] end) with o :: _ => Some o | [] => None end) with given by (destruct given; reflexivity).
  destruct (encrypt_one_spec key input given w2) as (r0 & w3 & E1 & _ & _ & _ & _ & _ & _ & G). unfold tbind. rewrite E1.
  assert (Ho : exists out, out_of input given = Some out).
  { destruct given as [o|]; [now exists o|]. cbn [out_of]. destruct HP as (hx & _ & _ & HP).
    assert (X : exists b, input = b ++ bs ".cacnk" \/ input = b ++ bs ".cacnk.enc").
    { destruct HP as [(_ & [->|(dir & ->)])|(_ & [->|(dir & ->)])]; [exists hx|exists (dir ++ [47] ++ hx)|exists hx|exists (dir ++ [47] ++ hx)]; rewrite <- ?app_assoc; auto. }
    destruct X as (b & [->| ->]); eexists; (apply other_default; [exists b|auto]); [left|right]; auto. }
  destruct Ho as (out & Ho). rewrite (G id out data); auto.
  - apply chunk_names; auto.
  - rewrite S1. exact Hd.
  - intros X. apply Hok. eapply suffix_false; eauto.
  - rewrite C2. exact Hio.
  - rewrite C2. exact Ht.
Qed.
(** In terms of the specification. *)
Lemma tool_crypts argv w w' spec input given : Forall no_nul argv -> tool_strings w -> crypt_args argv spec (Some input) given -> tool_main argv w = (Ok 0, w') ->
  exists key id out, tool_key w spec key /\ (chunk_path input id \/ odd_path input id) /\ output_name input given out /\
    (tw_fs w out = None -> exists data d, tw_fs w input = Some data /\ is_crypted key id data d /\
      (out = bs "-" -> tw_stdout w' = tw_stdout w ++ d) /\ (out <> bs "-" -> tw_fs w' out = Some d) /\
      (4294967296 <= blen data -> forall i, blen data mod 4294967296 <= N.of_nat i -> byte_of d i = byte_of data i)).
Proof.
  intros A B Ha H. assert (Ni := crypt_args_no_nul _ _ _ _ A Ha). destruct (tool_one _ _ _ _ _ _ A B Ha H) as (key & id & out & K & I1 & O & X). exists key, id, out.
  split; [exact K|]. split; [now apply chunk_names|]. split; [now apply out_of_name|]. intros N. destruct (X N) as (data & D1 & D2). exists data, (tcrypt key id data). split; [exact D1|]. split; [|split; [|split]].
  - destruct (tool_key_ok _ _ _ K), (chunk_id_ok _ _ Ni I1). apply tcrypt_spec; auto. lia.
  - intros ->. rewrite beq_refl in D2. exact D2.
  - intros Hn. apply beq_neq in Hn. rewrite Hn in D2. exact D2.
  - intros. now apply tcrypt_large.
Qed.
Lemma tool_stopped argv w w2 w3 spec input given out : Forall no_nul argv -> tool_strings w2 -> crypt_args argv spec (Some input) given -> output_name input given out -> out <> bs "-" ->
  tw_fs w2 out = None -> (forall p, p <> out -> tw_fs w2 p = tw_fs (snd (tool_main argv w)) p) -> tool_strings w ->
  tool_main argv w2 = (Ok 0, w3) ->
  exists key id data d, tool_key w2 spec key /\ (chunk_path input id \/ odd_path input id) /\ tw_fs w2 input = Some data /\ (forall x, tw_fs w input = Some x -> x = data) /\ is_crypted key id data d /\ tw_fs w3 out = Some d.
Proof.
  intros A B Ha Ho Hd Hn Hs Bw H. destruct (tool_crypts _ _ _ _ _ _ A B Ha H) as (key & id & out' & K & P & O & X).
  assert (out' = out) as ->. { destruct given as [g|]; cbn in O, Ho; [congruence|exact (other_unique _ _ _ O Ho)]. }
  destruct (X Hn) as (data & d & D1 & D2 & _ & D3 & _). exists key, id, data, d. split; [exact K|]. split; [exact P|]. split; [exact D1|]. split; [|split; [exact D2|now apply D3]].
  intros x Hx. destruct (tool_keeps argv w A Bw) as (_ & Kp). apply Kp in Hx. rewrite <- Hs in Hx by congruence. congruence.
Qed.
