(** Scanning a file does not depend on how it is cut into reads (C87). *)
From Verif Require Import Base Lib Utils Discr Chunker SpecBasic SpecChunker PfUtils PfBasic PfLive.
Ltac Zify.zify_post_hook ::= Z.div_mod_to_equations.
Local Open Scope nat_scope.
Local Arguments WIN : simpl never.

Local Notation scan_loop_step := (PfLive.scan_loop_step (fun _ => 0%N) false).
Local Notation chunker_scan_step := (PfLive.chunker_scan_step (fun _ => 0%N) false).

Definition shift (k : nat) (o : outcome (option nat * chunker)) : outcome (option nat * chunker) :=
  match o with Ok (Some n, c) => Ok (Some (k + n), c) | o => o end.
Lemma shift_0 o : shift 0 o = o. Proof. destruct o as [[[n|] c]| | |]; reflexivity. Qed.
Lemma shift_shift a b o : shift a (shift b o) = shift (a + b) o.
Proof. destruct o as [[[n|] c]| | |]; cbn; try reflexivity. now rewrite Nat.add_assoc. Qed.

(** ** The rolling hash *)
Definition idx_of (size : N) : nat := N.to_nat (size mod 48).
Lemma idx_next size : (if Nat.eqb (S (idx_of size)) WIN then 0 else S (idx_of size)) = idx_of (size + 1).
Proof. unfold idx_of, WIN. destruct (Nat.eqb_spec (S (N.to_nat (size mod 48))) 48); lia. Qed.
Lemma scan_loop_n p disc : forall buf h size win idx n,
  scan_loop p disc h size win idx buf n =
  match scan_loop p disc h size win idx buf 0 with Some (m, h', size', win', brk) => Some (n + m, h', size', win', brk) | None => None end.
Proof.
  induction buf as [|x buf IH]; intros h size win idx n; cbn [scan_loop]; [do 5 f_equal; lia|].
  destruct (shall_break _ _ _ _) as [[]|]; [do 5 f_equal; lia| |reflexivity].
  rewrite (IH _ _ _ _ (S n)), (IH _ _ _ _ 1). destruct (scan_loop _ _ _ _ _ _ _ _) as [[[[[m h'] size'] win'] brk]|]; [do 5 f_equal; lia|reflexivity].
Qed.
Lemma scan_loop_len p disc : forall buf h size win idx m h' size' win' brk, scan_loop p disc h size win idx buf 0 = Some (m, h', size', win', brk) ->
  m <= length buf /\ (brk = false -> m = length buf) /\ length win' = length win.
Proof.
  induction buf as [|x buf IH]; intros h size win idx m h' size' win' brk H; cbn [scan_loop] in H; [injection H as <- <- <- <- <-; auto|].
  assert (L : length (upd_nth idx x win) = length win). { clear. revert idx. induction win as [|y win IH]; intros [|idx]; cbn; auto. }
  destruct (shall_break _ _ _ _) as [[]|]; [injection H as <- <- <- <- <-| |discriminate].
  { cbn. split; [lia|]. split; [discriminate|exact L]. }
  rewrite scan_loop_n in H. destruct (scan_loop _ _ _ _ _ _ buf 0) as [[[[[m0 h0] s0] w0] b0]|] eqn:Es; [|discriminate]. injection H as <- <- <- <- <-.
  apply IH in Es. destruct Es as (A & B & C). cbn. split; [lia|]. split; [intros; rewrite B by assumption; lia|congruence].
Qed.
Lemma scan_loop_app p disc : forall b1 b2 h size win,
  scan_loop p disc h size win (idx_of size) (b1 ++ b2) 0 =
  match scan_loop p disc h size win (idx_of size) b1 0 with
  | Some (n1, h1, s1, w1, false) =>
      match scan_loop p disc h1 s1 w1 (idx_of s1) b2 0 with Some (m, h', size', win', brk) => Some (n1 + m, h', size', win', brk) | None => None end
  | o => o end.
Proof.
  induction b1 as [|x b1 IH]; intros b2 h size win; cbn [scan_loop app].
  { destruct (scan_loop _ _ _ _ _ _ b2 0) as [[[[[m h'] size'] win'] brk]|]; reflexivity. }
  rewrite idx_next. destruct (shall_break _ _ _ _) as [[]|]; [reflexivity| |reflexivity].
  rewrite scan_loop_n, (scan_loop_n _ _ b1), IH. destruct (scan_loop _ _ _ _ _ _ b1 0) as [[[[[m h'] size'] win'] []]|]; [reflexivity| |reflexivity].
  destruct (scan_loop _ _ _ _ _ _ b2 0) as [[[[[m2 h2] size2] win2] brk2]|]; [do 5 f_equal; lia|reflexivity].
Qed.

(** ** One call, in three cases *)
Lemma scan_full c buf : WIN <= c_fill c -> chunker_shall_break c = Some false ->
  chunker_scan c buf = match scan_loop (c_params c) (c_disc c) (c_h c) (c_size c) (c_win c) (idx_of (c_size c)) buf 0 with
                       | None => UB
                       | Some (n, h, size, win, brk) => Ok (if (brk : bool) then Some n else None, mkChunker (c_params c) (c_disc c) h size (c_fill c) win (c_sha c ++ firstn n buf)) end.
Proof.
  intros Hf Hb. unfold chunker_scan. rewrite (proj2 (Nat.ltb_ge _ _) Hf). cbn [negb c_fill]. rewrite Nat.add_0_r, (proj2 (Nat.ltb_ge _ _) Hf).
  cbn [firstn skipn]. rewrite app_nil_r, N.add_0_r. unfold chunker_shall_break in *. cbn [c_params c_disc c_h c_size c_win c_sha c_fill]. rewrite Hb. reflexivity.
Qed.
Lemma scan_short c buf : c_fill c + length buf < WIN ->
  chunker_scan c buf = Ok (None, mkChunker (c_params c) (c_disc c) (c_h c) (c_size c + N.of_nat (length buf)) (c_fill c + length buf) (overlay_at (c_fill c) buf (c_win c)) (c_sha c ++ buf)).
Proof.
  intros H. unfold chunker_scan. rewrite (proj2 (Nat.ltb_lt (c_fill c) WIN)) by lia. cbn [negb c_fill]. replace (Nat.min (length buf) (WIN - c_fill c)) with (length buf) by lia.
  rewrite (proj2 (Nat.ltb_lt (c_fill c + length buf) WIN) H), firstn_all. reflexivity.
Qed.
Definition filled (c : chunker) (a : bytes) : chunker :=
  mkChunker (c_params c) (c_disc c) (hash_window (overlay_at (c_fill c) a (c_win c)) WIN (c_h c)) (c_size c + N.of_nat (length a)) (c_fill c + length a)
            (overlay_at (c_fill c) a (c_win c)) (c_sha c ++ a).
Lemma scan_fill c a b : c_fill c < WIN -> c_fill c + length a = WIN ->
  chunker_scan c (a ++ b) = match chunker_shall_break (filled c a) with None => UB | Some true => Ok (Some (length a), filled c a)
                            | Some false => shift (length a) (chunker_scan (filled c a) b) end.
Proof.
  intros H1 H2. destruct (chunker_shall_break (filled c a)) as [bb|] eqn:Eb.
  - destruct bb; [|rewrite (scan_full (filled c a)); [|unfold filled; cbn [c_fill]; lia|exact Eb]];
    unfold chunker_scan; rewrite (proj2 (Nat.ltb_lt _ _) H1); cbn [negb c_fill]; rewrite app_length; replace (Nat.min (length a + length b) (WIN - c_fill c)) with (length a) by lia;
    rewrite (proj2 (Nat.ltb_ge (c_fill c + length a) WIN)) by lia; rewrite firstn_app, firstn_all, Nat.sub_diag, skipn_app, skipn_all, Nat.sub_diag; cbn [firstn skipn app]; rewrite app_nil_r;
    unfold filled in *; unfold chunker_shall_break in *; cbn [c_params c_disc c_h c_size c_win c_sha c_fill] in *; rewrite Eb; [reflexivity|].
    fold (idx_of (c_size c + N.of_nat (length a))). destruct (scan_loop _ _ _ _ _ _ b 0) as [[[[[m h'] size'] win'] []]|]; reflexivity.
  - unfold chunker_scan; rewrite (proj2 (Nat.ltb_lt _ _) H1); cbn [negb c_fill]; rewrite app_length; replace (Nat.min (length a + length b) (WIN - c_fill c)) with (length a) by lia;
    rewrite (proj2 (Nat.ltb_ge (c_fill c + length a) WIN)) by lia; rewrite firstn_app, firstn_all, Nat.sub_diag, skipn_app, skipn_all, Nat.sub_diag; cbn [firstn skipn app]; rewrite app_nil_r;
    unfold filled in *; unfold chunker_shall_break in *; cbn [c_params c_disc c_h c_size c_win c_sha c_fill] in *; rewrite Eb; reflexivity.
Qed.

(** ** Two calls are one *)
Definition okc (c : chunker) : Prop := length (c_win c) = WIN /\ c_fill c <= WIN /\ pending c.
Lemma overlay_at_app n (x y l : bytes) : n + length x + length y <= length l -> overlay_at (n + length x) y (overlay_at n x l) = overlay_at n (x ++ y) l.
Proof.
  intros H. unfold overlay_at. rewrite app_length, <- !app_assoc. rewrite firstn_app_ge by (rewrite firstn_length; lia). rewrite firstn_length_le by lia.
  replace (n + length x - n) with (length x) by lia. rewrite firstn_app, firstn_all, Nat.sub_diag, firstn_O, app_nil_r, <- app_assoc. do 3 f_equal.
  rewrite !skipn_app, firstn_length_le by lia. rewrite (skipn_all2 (firstn n l)) by (rewrite firstn_length; lia). rewrite (skipn_all2 x) by lia. cbn [app].
  rewrite <- skipn_add. f_equal. lia.
Qed.
Lemma overlay_at_len n (x l : bytes) : n + length x <= length l -> length (overlay_at n x l) = length l.
Proof. intros H. unfold overlay_at. rewrite !app_length, skipn_length, firstn_length. lia. Qed.

Lemma full_app c d1 d2 : WIN <= c_fill c -> chunker_shall_break c = Some false ->
  chunker_scan c (d1 ++ d2) = match chunker_scan c d1 with Ok (None, c1) => shift (length d1) (chunker_scan c1 d2) | o => o end.
Proof.
  intros Hf Hb. rewrite !scan_full by assumption. rewrite scan_loop_app.
  destruct (scan_loop _ _ _ _ _ _ d1 0) as [[[[[n1 h1] s1] w1] []]|] eqn:E1; [| |reflexivity].
  - apply scan_loop_len in E1. rewrite firstn_app_le by lia. reflexivity.
  - assert (L := scan_loop_len _ _ _ _ _ _ _ _ _ _ _ _ E1). destruct L as (_ & L & _). specialize (L eq_refl). apply scan_loop_step in E1. destruct E1 as (_ & E1). specialize (E1 Hb).
    rewrite scan_full; [|exact Hf|exact E1]. cbn [c_params c_disc c_h c_size c_win c_sha c_fill].
    destruct (scan_loop _ _ _ _ _ _ d2 0) as [[[[[n2 h2] s2] w2] brk]|] eqn:E2; [|reflexivity]. subst n1. rewrite firstn_app_ge by lia. replace (length d1 + n2 - length d1) with n2 by lia.
    rewrite firstn_all, app_assoc. destruct brk; reflexivity.
Qed.
Lemma chunker_scan_app c d1 d2 : okc c ->
  chunker_scan c (d1 ++ d2) = match chunker_scan c d1 with Ok (None, c1) => shift (length d1) (chunker_scan c1 d2) | o => o end.
Proof.
  intros (Hw & Hf & HP). destruct (Nat.lt_ge_cases (c_fill c) WIN) as [Lt|Ge].
  2:{ destruct HP as [HP|HP]; [lia|]. now apply full_app. }
  destruct (Nat.lt_ge_cases (c_fill c + length d1) WIN) as [L1|G1].
  - rewrite (scan_short c d1) by exact L1. set (c1 := mkChunker _ _ _ _ _ _ _).
    destruct (Nat.lt_ge_cases (c_fill c + length d1 + length d2) WIN) as [L2|G2].
    + rewrite !scan_short by (cbn [c_fill c1]; rewrite ?app_length; lia). cbn [shift]. unfold c1. cbn [c_params c_disc c_h c_size c_win c_sha c_fill].
      rewrite overlay_at_app by lia. rewrite app_length, app_assoc. do 3 f_equal; lia.
    + rewrite <- (firstn_skipn (WIN - (c_fill c + length d1)) d2). set (a2 := firstn _ d2). set (b := skipn _ d2). assert (La : length a2 = WIN - (c_fill c + length d1)) by (unfold a2; rewrite firstn_length; lia).
      rewrite app_assoc. rewrite (scan_fill c) by (rewrite ?app_length; lia). rewrite (scan_fill c1) by (cbn [c_fill c1]; lia).
      assert (Ef : filled c (d1 ++ a2) = filled c1 a2). { unfold filled, c1. cbn [c_params c_disc c_h c_size c_win c_sha c_fill]. rewrite overlay_at_app by lia. rewrite app_length, app_assoc. f_equal; lia. }
      rewrite Ef, app_length. destruct (chunker_shall_break _) as [[]|]; cbn [shift]; [reflexivity| |reflexivity]. now rewrite shift_shift.
  - rewrite <- (firstn_skipn (WIN - c_fill c) d1). set (a := firstn _ d1). set (b := skipn _ d1). assert (La : length a = WIN - c_fill c) by (unfold a; rewrite firstn_length; lia).
    rewrite <- app_assoc. rewrite (scan_fill c a (b ++ d2)), (scan_fill c a b) by lia. destruct (chunker_shall_break (filled c a)) as [[]|] eqn:Eb; [reflexivity| |reflexivity].
    rewrite full_app; [|unfold filled; cbn [c_fill]; lia|exact Eb]. destruct (chunker_scan (filled c a) b) as [[[n|] c1]| | |]; try reflexivity. cbn [shift]. rewrite shift_shift, app_length. reflexivity.
Qed.
Lemma chunker_scan_okc c d r c' : chunker_scan c d = Ok (r, c') -> okc c -> d <> [] -> match r with Some n => 0 < n <= length d /\ length (c_win c') = WIN | None => okc c' end.
Proof.
  intros H (Hw & Hf & HP) Hd. assert (X := chunker_scan_step _ _ _ _ H HP Hd).
  assert (Y : length (c_win c') = WIN /\ c_fill c' <= WIN /\ match r with Some n => n <= length d | None => True end).
  2:{ destruct r; [intuition|]. destruct Y as (Y1 & Y2 & _). split; [exact Y1|]. split; [exact Y2|exact X]. }
  clear X Hd. assert (Full : forall c d r c', chunker_scan c d = Ok (r, c') -> length (c_win c) = WIN -> c_fill c = WIN -> chunker_shall_break c = Some false ->
     length (c_win c') = WIN /\ c_fill c' <= WIN /\ match r with Some n => n <= length d | None => True end).
  { clear. intros c d r c' H Hw Hf Hb. rewrite scan_full in H by (auto; lia). destruct (scan_loop _ _ _ _ _ _ d 0) as [[[[[n h] s] w] brk]|] eqn:Es; [|discriminate].
    injection H as <- <-. apply scan_loop_len in Es. cbn. destruct Es as (A & B & C). split; [congruence|]. split; [lia|]. destruct brk; auto. }
  destruct (Nat.lt_ge_cases (c_fill c) WIN) as [Lt|Ge].
  2:{ destruct HP as [HP|HP]; [lia|]. eapply Full; eauto. lia. }
  destruct (Nat.lt_ge_cases (c_fill c + length d) WIN) as [L1|G1].
  { rewrite scan_short in H by exact L1. injection H as <- <-. cbn. rewrite overlay_at_len by lia. split; [exact Hw|]. split; [lia|exact Logic.I]. }
  revert H. rewrite <- (firstn_skipn (WIN - c_fill c) d) at 1. set (a := firstn _ d). set (b := skipn _ d). assert (La : length a = WIN - c_fill c) by (unfold a; rewrite firstn_length; lia).
  assert (Ld : length d = length a + length b) by (unfold b; rewrite skipn_length; lia). clearbody a b.
  rewrite scan_fill by lia. assert (Lw : length (c_win (filled c a)) = WIN) by (cbn; rewrite overlay_at_len; lia).
  destruct (chunker_shall_break (filled c a)) as [[]|] eqn:Eb; intros H; [injection H as <- <-; cbn in *; repeat split; auto; lia| |discriminate].
  destruct (chunker_scan (filled c a) b) as [[[n|] c1]| | |] eqn:Es; cbn [shift] in H; try discriminate; injection H as <- <-;
    (eapply Full in Es; [|exact Lw|unfold filled; cbn [c_fill]; lia|exact Eb]); intuition lia.
Qed.
Lemma okc_reset c : length (c_win c) = WIN -> okc (chunker_reset c).
Proof. intros H. split; [exact H|]. split; [cbn; lia|apply pending_reset]. Qed.
Lemma okc_init p c : chunker_init p = Ok c -> okc c.
Proof. unfold chunker_init. destruct (discriminator_from_avg _) as [d|]; [|discriminate]. intros H. injection H as <-. apply (okc_reset (mkChunker p d 0 0 0 (repeat 0%N WIN) [])). apply repeat_length. Qed.

(** ** The loop over one buffer, over two *)
Section Buf.
Context {A : Type}.
Variables (cb : N -> N -> bytes -> A -> M (bool * A)) (E : env).
Lemma scan_buf_fuel : forall f1 f2 buf st w, length buf < f1 -> length buf < f2 -> okc (sc_c st) -> scan_buf cb E f1 buf st w = scan_buf cb E f2 buf st w.
Proof.
  induction f1 as [|f1 IH]; intros f2 buf st w H1 H2 Hc; [lia|]. destruct f2 as [|f2]; [lia|]. cbn [scan_buf]. destruct buf as [|x buf0]; [reflexivity|]. set (buf := x :: buf0) in *.
  unfold bind, lift. destruct (chunker_scan (sc_c st) buf) as [[[n|] c]| | |] eqn:Es; try reflexivity.
  apply chunker_scan_okc in Es; [|exact Hc|discriminate]. destruct Es as (Hn & Hw).
  destruct (cb _ _ _ _ w) as [[[ok a]| | |] w1]; try reflexivity. destruct ok; cbn [negb]; [|reflexivity].
  apply IH; rewrite ?skipn_length; try lia. apply okc_reset, Hw.
Qed.
Lemma scan_buf_app : forall n d1 d2 st w, length d1 <= n -> okc (sc_c st) ->
  scan_buf cb E (S (length (d1 ++ d2))) (d1 ++ d2) st w =
  ('(ok, st') <- scan_buf cb E (S (length d1)) d1 st ;; if (ok : bool) then scan_buf cb E (S (length d2)) d2 st' else ret (false, st')) w.
Proof.
  induction n as [|n IH]; intros d1 d2 st w Hn Hc.
  { destruct d1; [|cbn in Hn; lia]. reflexivity. }
  destruct d1 as [|x d1']; [reflexivity|]. set (d1 := x :: d1') in *. assert (Hd : d1 <> []) by discriminate. assert (Hl : 0 < length d1) by (cbn; lia).
  assert (Hd2 : exists y l, d1 ++ d2 = y :: l) by (exists x, (d1' ++ d2); reflexivity). clearbody d1. clear x d1'.
  assert (U : forall fuel d st w, d <> [] -> scan_buf cb E (S fuel) d st w =
     ('(r, c) <- lift (chunker_scan (sc_c st) d) ;;
      match r with
      | None => ret (true, mkScan c (sc_off st + blen d)%N (sc_last st) (sc_arg st))
      | Some n =>
          let off := (sc_off st + N.of_nat n)%N in
          let id := chunker_get_id E c in
          '(ok, a) <- cb (sc_last st) ((off - sc_last st) mod M32)%N id (sc_arg st) ;;
          if negb (ok : bool) then ret (false, mkScan c off (sc_last st) a)
          else scan_buf cb E fuel (skipn n d) (mkScan (chunker_reset c) off off a)
      end) w).
  { intros fuel d st0 w0 H. destruct d; [congruence|reflexivity]. }
  unfold bind at 1. rewrite (U (length (d1 ++ d2)) (d1 ++ d2)) by (destruct Hd2 as (y & l & ->); discriminate). rewrite (U (length d1) d1) by exact Hd. unfold bind, lift. rewrite (chunker_scan_app _ d1 d2 Hc).
  destruct (chunker_scan (sc_c st) d1) as [[[k|] c]| | |] eqn:Es; try reflexivity.
  - apply chunker_scan_okc in Es; [|exact Hc|exact Hd]. destruct Es as (Hk & Hw). destruct (cb _ _ _ _ w) as [[[ok a]| | |] w1]; try reflexivity. destruct ok; cbn [negb]; [|reflexivity].
    rewrite skipn_app. replace (k - length d1) with 0 by lia. cbn [skipn]. assert (Hr : okc (chunker_reset c)) by (apply okc_reset, Hw).
    rewrite (scan_buf_fuel _ (S (length (skipn k d1 ++ d2)))); [|rewrite !app_length, skipn_length; lia|lia|exact Hr].
    rewrite IH; [|rewrite skipn_length; lia|exact Hr]. unfold bind. rewrite (scan_buf_fuel (S (length (skipn k d1))) (length d1)); [reflexivity|lia|rewrite skipn_length; lia|exact Hr].
  - apply chunker_scan_okc in Es; [|exact Hc|exact Hd]. unfold ret. destruct d2 as [|y d2'].
    { rewrite app_nil_r. cbn [scan_buf]. unfold ret. pose proof (chunker_scan_app c [] [] Es) as _. 
      assert (X : exists c0, chunker_scan c [] = Ok (None, c0) /\ c0 = c).
      { destruct Es as (W1 & W2 & [W3|W3]).
        - rewrite scan_short by (cbn; lia). eexists. split; [reflexivity|]. cbn. rewrite Nat.add_0_r, N.add_0_r, app_nil_r. unfold overlay_at. cbn. rewrite Nat.add_0_r, firstn_skipn. now destruct c.
        - destruct (Nat.lt_ge_cases (c_fill c) WIN). { rewrite scan_short by (cbn; lia). eexists. split; [reflexivity|]. cbn. rewrite Nat.add_0_r, N.add_0_r, app_nil_r. unfold overlay_at. cbn. rewrite Nat.add_0_r, firstn_skipn. now destruct c. }
          rewrite scan_full by assumption. cbn. eexists. split; [reflexivity|]. rewrite app_nil_r. now destruct c. }
      destruct X as (c0 & -> & ->). reflexivity. }
    set (d2 := y :: d2') in *. assert (Hd2' : d2 <> []) by discriminate. clearbody d2. rewrite U by exact Hd2'. unfold bind, lift, ret. cbn [sc_c sc_off sc_last sc_arg].
    destruct (chunker_scan c d2) as [[[k|] c2]| | |] eqn:E2; cbn [shift]; try reflexivity.
    + apply chunker_scan_okc in E2; [|exact Es|exact Hd2']. destruct E2 as (Hk & Hw2).
      replace (sc_off st + N.of_nat (length d1 + k))%N with (sc_off st + blen d1 + N.of_nat k)%N by (unfold blen; lia).
      destruct (cb _ _ _ _ w) as [[[ok a]| | |] w1]; try reflexivity. destruct ok; cbn [negb]; [|reflexivity].
      rewrite skipn_app, skipn_all2 by lia. replace (length d1 + k - length d1) with k by lia. cbn [app]. apply scan_buf_fuel; rewrite ?skipn_length, ?app_length; try lia. apply okc_reset, Hw2.
    + replace (sc_off st + blen (d1 ++ d2))%N with (sc_off st + blen d1 + blen d2)%N; [reflexivity|]. unfold blen. rewrite app_length. lia.
Qed.
Lemma scan_buf_okc : forall fuel d st w st' w', scan_buf cb E fuel d st w = (Ok (true, st'), w') -> okc (sc_c st) -> okc (sc_c st').
Proof.
  induction fuel as [|fuel IH]; intros d st w st' w' H Hc; [discriminate|]. cbn [scan_buf] in H. destruct d as [|x d0]; [injection H as <- <-; exact Hc|]. set (d := x :: d0) in *.
  unfold bind, lift, ret in H. destruct (chunker_scan (sc_c st) d) as [[[n|] c]| | |] eqn:Es; try discriminate.
  - apply chunker_scan_okc in Es; [|exact Hc|discriminate]. destruct (cb _ _ _ _ w) as [[[ok a]| | |] w1]; try discriminate. destruct ok; cbn [negb] in H; [|discriminate].
    apply IH in H; [exact H|]. apply okc_reset, Es.
  - injection H as <- <-. apply chunker_scan_okc in Es; [exact Es|exact Hc|discriminate].
Qed.
End Buf.
