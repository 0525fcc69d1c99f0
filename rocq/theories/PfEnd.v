(** patchdd and csn-tool come to an end (C63, C64). *)
From Verif Require Import Base Lib Utils Encrypt Ui Patchdd Tool SpecLive SpecPatch SpecTool PfUtils PfBasic PfIO PfFrame PfLive PfAbort PfTool.
Local Open Scope nat_scope.
Local Open Scope tmonad_scope.

(** ** patchdd *)
Definition clean (ev : list ioev) : Prop := ~ In IoZero ev.
Lemma clean_suffix s l : suffix s l -> clean l -> clean s.
Proof. intros (p & ->) H X. apply H, in_or_app. now right. Qed.
Definition all_files (_ : nat) : Prop := True.
(** [m] ends unless fewer than [B] answers are there, and uses at most [B]. *)
Definition ends {A} (B : nat) (K : A -> Prop) (m : M A) : Prop := forall w, clean (w_io w) ->
  match m w with
  | (Ok a, w') => K a /\ settled (w_io w) <= settled (w_io w') + B /\ clean (w_io w')
  | (Halt, _) => settled (w_io w) < B
  | _ => False
  end.
Lemma ends_ret A (K : A -> Prop) a B : K a -> ends B K (ret a). Proof. intros Ka w H. cbn. split; [exact Ka|]. split; [lia|exact H]. Qed.
Lemma ends_bind A C B1 B2 B (J : A -> Prop) (K : C -> Prop) (m : M A) (k : A -> M C) : ends B1 J m -> (forall a, J a -> ends B2 K (k a)) -> B1 + B2 <= B -> ends B K (bind m k).
Proof.
  intros H HK L w Hc. specialize (H w Hc). unfold bind. destruct (m w) as [[a| | |] w1]; try contradiction; [|lia]. destruct H as (Ja & H1 & H2).
  specialize (HK a Ja w1 H2). destruct (k a w1) as [[c| | |] w2]; try contradiction; [|lia]. destruct HK as (Kc & K1 & K2). split; [exact Kc|]. split; [lia|exact K2].
Qed.
Lemma frame_clean A (S : nat -> Prop) (m : M A) w : frame S tt_ev m -> clean (w_io w) -> clean (w_io (snd (m w))).
Proof. intros F. destruct (F w) as (_ & Hs & _). now apply clean_suffix. Qed.
Lemma ends_pread ino len off : ends (N.to_nat len) (fun r => length (snd r) <= N.to_nat len) (preadall ino len off).
Proof.
  intros w Hc. pose proof (frame_clean _ all_files _ w (frame_preadall all_files tt_ev ino len off) Hc) as Hc'. revert Hc'. unfold preadall. destruct (len =? 0)%N eqn:L; [intros; cbn; split; [lia|]; split; [lia|assumption]|].
  destruct (OFF_LIMIT <=? off)%N.
  - destruct (w_io w) as [|e ev] eqn:Ew; cbn [fst snd]; intros; [cbn; lia|]. cbn. split; [lia|]. split; [destruct e; cbn; lia|assumption].
  - match goal with |- context [read_loop ?a ?l ?e ?g] => pose proof (read_loop_spec e a l g) as Sp; pose proof (read_loop_cost (fun _ => 0%N) e a l g) as C; destruct (read_loop a l e g) as [[r got] ev'] end.
    specialize (Sp _ _ _ eq_refl). destruct C as (_ & C1 & C2). destruct r; cbn [fst snd w_io set_io]; intros.
    + split; [destruct Sp as (_ & ->); cbn [app]; rewrite firstn_length; lia|]. split; [exact C2|assumption].
    + split; [destruct Sp as (n & S1 & S2 & ->); cbn [app]; rewrite firstn_length; lia|]. split; [exact C2|assumption].
    + exact Sp.
    + now apply C1.
Qed.
Lemma ends_pwrite E ino data off : ends (length data) any (pwriteall E ino data off).
Proof.
  intros w Hc. pose proof (frame_clean _ all_files _ w (frame_pwriteall all_files tt_ev E ino data off Logic.I ltac:(intros; exact Logic.I)) Hc) as Hc'. revert Hc'. unfold pwriteall.
  pose proof (pwrite_assert (e_kind E ino) (w_io w) (w_files w ino) off data [] Hc) as Ha.
  pose proof (pwrite_loop_cost (fun _ => 0%N) (e_kind E ino) (blen (w_files w ino) + (OFF_LIMIT + blen data))%N (w_io w) (w_files w ino) off data [] ltac:(lia) ltac:(lia)) as C.
  destruct (pwrite_loop _ _ _ _ _ _) as [[[r f'] wr] ev']. destruct C as (_ & _ & C1 & C2). cbn [fst] in Ha.
  destruct r; cbn [fst snd w_io]; intros; try (split; [exact Logic.I|]; split; [exact C2|assumption]); [congruence|]. now apply C1.
Qed.
Lemma ends_trace t : ends 0 any (trace t). Proof. intros w H. cbn. split; [exact Logic.I|]. split; [lia|exact H]. Qed.
Lemma ends_patch E src dst size : forall fuel off skipped, (off <= size)%N -> N.to_nat (size - off) < fuel -> ends (3 * N.to_nat (size - off)) any (patch_loop E fuel src dst size off skipped).
Proof.
  induction fuel as [|fuel IH]; intros off sk Ho Hf; [lia|]. cbn [patch_loop]. destruct (size <=? off)%N eqn:El; [now apply ends_ret|]. cbv zeta. set (n := N.min (size - off) TRANSFER_SIZE).
  assert (Hn : (0 < n /\ n <= size - off)%N) by (unfold n, TRANSFER_SIZE; lia).
  apply (ends_bind _ _ (N.to_nat n) (2 * N.to_nat n + 3 * N.to_nat (size - off - n)) _ (fun r => length (snd r) <= N.to_nat n)); [apply ends_pread| |lia]. intros [ok a] Ha. cbn [snd] in Ha.
  destruct ok; [|now apply ends_ret]. cbn [negb].
  apply (ends_bind _ _ (N.to_nat n) (N.to_nat n + 3 * N.to_nat (size - off - n)) _ (fun r => length (snd r) <= N.to_nat n)); [apply ends_pread| |lia]. intros [ok b] _.
  destruct ok; [|now apply ends_ret]. cbn [negb].
  set (k := memcmp_offset a b). apply (ends_bind _ _ (length (skipn k a)) (3 * N.to_nat (size - off - n)) _ any); [apply ends_pwrite| |rewrite skipn_length; lia]. intros ok _.
  destruct ok; [|now apply ends_ret]. cbn [negb].
  apply (ends_bind _ _ 0 (3 * N.to_nat (size - off - n)) _ any); [destruct (e_interactive E); [apply ends_trace|now apply ends_ret]| |lia]. intros _ _.
  replace (size - off - n)%N with (size - (off + n))%N by lia. apply IH; lia.
Qed.
Lemma ends_fsync ino : ends 1 any (fsync ino).
Proof.
  intros w Hc. unfold fsync. destruct (w_io w) as [|e ev] eqn:Ew; [cbn; lia|].
  assert (clean ev) by (intros X; apply Hc; now right). destruct e; cbn; rewrite ?Ew; cbn; (split; [exact Logic.I|]; split; [lia|assumption]).
Qed.
(** The number of bytes patchdd copies. *)
Lemma patchdd_ends E argv w : clean (w_io w) -> (forall src, src_of E argv = Some src -> 3 * length (w_files w src) + 1 <= settled (w_io w)) ->
  exists status, fst (patchdd_main E argv w) = Ok status.
Proof.
  intros Hc Hb. unfold patchdd_main. destruct argv as [|a0 [|sp [|dp args]]]; try (eexists; reflexivity). destruct (_ || _); [eexists; reflexivity|].
  destruct (e_open E sp) as [src|] eqn:Es; [|eexists; reflexivity]. specialize (Hb src ltac:(unfold src_of; cbn [nth]; exact Es)).
  destruct (e_open_rw E dp) as [dst|]; [|eexists; reflexivity]. unfold bind at 1. unfold fd_size at 1.
  match goal with |- exists s, fst (match ?x with _ => _ end) = _ => assert (G : (exists n, x = (Ok (Some n), w) /\ n = blen (w_files w src)) \/ x = (Ok None, w)) end.
  { destruct (e_kind E src); eauto. }
  destruct G as [(n & -> & ->)| ->]; [|eexists; reflexivity]. unfold bind at 1.
  match goal with |- exists s, fst (match ?x with _ => _ end) = _ => assert (G : exists r, x = (Ok r, w)) by (unfold fd_size; destruct (e_kind E dst); eauto); destruct G as (r & ->) end.
  destruct r as [d|]; [|eexists; reflexivity]. destruct (_ <? _)%N; [eexists; reflexivity|].
  set (m := bind _ _).
  assert (R : ends (3 * length (w_files w src) + 1) any m).
  { unfold m. eapply (ends_bind _ _ (3 * length (w_files w src)) 1 _ any).
    - pose proof (ends_patch E src dst (blen (w_files w src)) (S (N.to_nat (blen (w_files w src)))) 0 0 ltac:(lia) ltac:(lia)) as P.
      rewrite N.sub_0_r in P. unfold blen in P at 1. rewrite Nat2N.id in P. exact P.
    - intros [sk|] _; [|now apply ends_ret]. apply (ends_bind _ _ 1 0 _ any); [apply ends_fsync| |lia]. intros ok _. now apply ends_ret.
    - lia. }
  specialize (R w Hc). destruct (m w) as [[c| | |] w']; try contradiction; [eexists; reflexivity|lia].
Qed.

(** ** csn-tool *)
Section Tool.
Variable M : nat.
Definition small (w : tworld) : Prop := clean (tw_io w) /\ forall p d, tw_fs w p = Some d -> length d <= M.
Definition tends {A} (B : nat) (K : A -> Prop) (m : TM A) : Prop := forall w, small w ->
  match m w with
  | (Ok a, w') => K a /\ settled (tw_io w) <= settled (tw_io w') + B /\ small w' /\ tw_stdin w' = tw_stdin w
  | (Halt, _) => settled (tw_io w) < B
  | _ => False
  end.
Lemma tends_ret A (K : A -> Prop) a B : K a -> tends B K (tret a). Proof. intros Ka w H. cbn. split; [exact Ka|]. split; [lia|]. split; [exact H|reflexivity]. Qed.
Lemma tends_bind A C B1 B2 B (J : A -> Prop) (K : C -> Prop) (m : TM A) (k : A -> TM C) : tends B1 J m -> (forall a, J a -> tends B2 K (k a)) -> B1 + B2 <= B -> tends B K (tbind m k).
Proof.
  intros H HK L w Hc. specialize (H w Hc). unfold tbind. destruct (m w) as [[a| | |] w1]; try contradiction; [|lia]. destruct H as (Ja & H1 & H2 & H3).
  specialize (HK a Ja w1 H2). destruct (k a w1) as [[c| | |] w2]; try contradiction; [|lia]. destruct HK as (Kc & K1 & K2 & K3). split; [exact Kc|]. split; [lia|]. split; [exact K2|congruence].
Qed.
Lemma tends_tok : tends 0 any tok.
Proof. intros w H. unfold tok. destruct (tw_ok w); (split; [exact Logic.I|]; split; [cbn; lia|]; split; [exact H|reflexivity]). Qed.
Lemma tends_slurp p : tends M (fun r => forall d, r = Some d -> length d <= M) (tslurp p).
Proof.
  intros w H. unfold tslurp. destruct (tw_fs w p) as [c|] eqn:Ef; [|split; [discriminate|]; split; [lia|]; split; [exact H|reflexivity]].
  assert (Hl : length c <= M) by (eapply H; eauto). revert w H Ef.
  match goal with |- forall w, small w -> _ -> match ?m w with _ => _ end => assert (G : tends M (fun r => forall d, r = Some d -> length d <= M) m) end.
  2:{ intros w H _. exact (G w H). }
  apply (tends_bind _ _ 0 M _ any); [apply tends_tok| |lia]. intros a _. destruct (negb a); [apply tends_ret; discriminate|]. intros w (H1 & H2).
  pose proof (read_loop_spec (tw_io w) c (blen c) []) as Sp. pose proof (read_loop_cost (fun _ => 0%N) (tw_io w) c (blen c) []) as C. pose proof (read_loop_suffix (tw_io w) c (blen c) []) as Su.
  destruct (read_loop c (blen c) (tw_io w) []) as [[r got] ev]. specialize (Sp _ _ _ eq_refl). specialize (Su _ _ _ eq_refl). destruct C as (_ & C1 & C2). unfold blen in C1, C2. rewrite Nat2N.id in C1, C2.
  assert (Hs : small (tw_set_io ev w)) by (split; [eapply clean_suffix; [exact Su|exact H1]|exact H2]).
  destruct r; cbn [tw_io tw_set_io].
  - split; [|split; [lia|]; split; [exact Hs|reflexivity]]. intros d [= <-]. destruct Sp as (_ & ->). cbn [app]. rewrite firstn_length. lia.
  - split; [discriminate|]. split; [lia|]. split; [exact Hs|reflexivity].
  - exact Sp.
  - destruct (C1 eq_refl). lia.
Qed.
Lemma tends_keyspec spec : tends M any (tparse_keyspec spec).
Proof.
  unfold tparse_keyspec. destruct (keyspec_src spec) as [s|v|p|]; try now apply tends_ret.
  - intros w H. destruct (tw_env w v); (split; [exact Logic.I|]; split; [lia|]; split; [exact H|reflexivity]).
  - eapply (tends_bind _ _ M 0); [apply tends_slurp| |lia]. intros [t|] _; now apply tends_ret.
Qed.
Lemma write_loop_cost : forall ev out data, clean ev ->
  match write_loop out data ev with
  | (r, out', ev') => r <> IoAssert /\ (r = IoHalt -> settled ev < length data) /\ settled ev <= settled ev' + length data /\ suffix ev' ev /\ length out' <= length out + length data
  end.
Proof.
  induction ev as [|e ev IH]; intros out data Hc; destruct data as [|x data]; cbn [write_loop].
  1,3: repeat split; try discriminate; try apply suffix_refl; cbn; lia.
  - repeat split; try discriminate; try apply suffix_refl; cbn; lia.
  - assert (Hc' : clean ev) by (intros X; apply Hc; now right). set (D := x :: data). assert (HD : 0 < length D) by (cbn; lia). destruct e as [m| | |].
    + cbv zeta. set (n := Nat.min (S m) (length D)). specialize (IH (out ++ firstn n D) (skipn n D) Hc'). destruct (write_loop _ _ ev) as [[r o] ev'].
      destruct IH as (I1 & I2 & I3 & I4 & I5). rewrite app_length, firstn_length in I5. rewrite skipn_length in *. cbn [settled].
      split; [exact I1|]. split; [intros X; specialize (I2 X); lia|]. split; [lia|]. split; [now apply suffix_cons|lia].
    + specialize (IH out D Hc'). fold D in IH. destruct (write_loop out D ev) as [[r o] ev'] eqn:Er. destruct IH as (I1 & I2 & I3 & I4 & I5). cbn [settled]. repeat split; auto. now apply suffix_cons.
    + cbn [settled]. repeat split; try discriminate; try lia. apply suffix_cons, suffix_refl.
    + exfalso. apply Hc. now left.
Qed.
Lemma tends_output out data : length data <= M -> tends M any (o <-- topen_out out ;; if negb o then tret false else twriteall out data).
Proof.
  intros Hd w Hw.
  assert (Wr : forall w, small w -> (beq out (bs "-") = true \/ tw_fs w out = Some []) ->
    match twriteall out data w with
    | (Ok a, w') => any a /\ settled (tw_io w) <= settled (tw_io w') + M /\ small w' /\ tw_stdin w' = tw_stdin w
    | (Halt, _) => settled (tw_io w) < M
    | _ => False end).
  { clear w Hw. intros w (H1 & H2) Ho. unfold twriteall. cbv zeta.
    match goal with |- context [write_loop ?c data (tw_io w)] => set (cur := c); pose proof (write_loop_cost (tw_io w) cur data H1) as C; destruct (write_loop cur data (tw_io w)) as [[r d] ev] end.
    destruct C as (C1 & C2 & C3 & C4 & C5).
    match goal with |- context [(Ok true, ?x)] => set (w' := x) end.
    assert (Hs : small w' /\ tw_io w' = ev /\ tw_stdin w' = tw_stdin w).
    { unfold w', cur in *. destruct (beq out (bs "-")) eqn:Eb; (split; [|split; reflexivity]); (split; [eapply clean_suffix; [exact C4|exact H1]|]); [exact H2|].
      destruct Ho as [Ho|Ho]; [discriminate|]. rewrite Ho in C5. cbn [tw_fs tw_set_fs tw_set_io]. intros p q. unfold fs_upd. destruct (beq p out); [intros [= <-]; cbn in C5; lia|apply H2]. }
    destruct Hs as (Hs & He & Hi). destruct r.
    - rewrite He. split; [exact Logic.I|]. split; [lia|]. split; [exact Hs|exact Hi].
    - rewrite He. split; [exact Logic.I|]. split; [lia|]. split; [exact Hs|exact Hi].
    - congruence.
    - specialize (C2 eq_refl). lia. }
  unfold tbind, topen_out. destruct (beq out (bs "-")) eqn:Eb; [apply Wr; auto|]. unfold tbind.
  pose proof (tends_tok w Hw) as T. destruct (tok w) as [[a| | |] w1]; try contradiction; [|lia]. destruct T as (_ & T1 & T2 & T3). destruct a; cbn [negb tret].
  - assert (S1 : small (tw_set_fs (fs_upd (tw_fs w1) out []) w1)).
    { destruct T2 as (A & B). split; [exact A|]. intros p q. cbn. unfold fs_upd. destruct (beq p out); [intros [= <-]; cbn; lia|apply B]. }
    assert (Se : tw_fs (tw_set_fs (fs_upd (tw_fs w1) out []) w1) out = Some []) by (unfold tw_set_fs, fs_upd; cbn [tw_fs]; now rewrite (proj2 (beq_eq out out) eq_refl)).
    specialize (Wr _ S1 (or_intror Se)). destruct (twriteall _ _ _) as [[c| | |] w2]; try contradiction; [|cbn in Wr; lia].
    destruct Wr as (W1 & W2 & W3 & W4). cbn in W2, W4. split; [exact Logic.I|]. split; [lia|]. split; [exact W3|congruence].
  - split; [exact Logic.I|]. split; [lia|]. auto.
Qed.
Lemma tends_one key input given : tends (2 * M) any (encrypt_one key input given).
Proof.
  unfold encrypt_one. destruct (chunk_id_from_path input) as [id|]; [|now apply tends_ret].
  match goal with |- tends _ _ (match ?o with _ => _ end) => destruct o as [out|] end; [|now apply tends_ret].
  intros w Hw. destruct (tw_fs w out); [split; [exact Logic.I|]; split; [lia|]; split; [exact Hw|reflexivity]|]. revert w Hw.
  match goal with |- forall w, small w -> match ?m w with _ => _ end => change (tends (2 * M) any m) end.
  apply (tends_bind _ _ 0 (2 * M) _ any); [apply tends_tok| |lia]. intros a _. destruct (negb a); [now apply tends_ret|].
  eapply (tends_bind _ _ M M); [apply tends_slurp| |lia]. intros [data|] Hd; [|now apply tends_ret]. specialize (Hd data eq_refl).
  apply (tends_bind _ _ 0 M _ any); [apply tends_tok| |lia]. intros e _. destruct (negb e); [now apply tends_ret|]. cbv zeta.
  apply tends_output. now rewrite length_tcrypt.
Qed.
Lemma fgets_shorter n : forall s line rest, fgets_split (S n) s = (line, rest) -> s <> [] -> length rest < length s.
Proof.
  assert (G : forall k s line rest, fgets_split k s = (line, rest) -> length rest <= length s).
  { induction k as [|k IH]; intros s line rest H; [injection H as <- <-; lia|]. destruct s as [|c s]; cbn in H; [injection H as <- <-; cbn; lia|].
    destruct (c =? 10)%N; [injection H as <- <-; cbn; lia|]. destruct (fgets_split k s) as [l r] eqn:E. injection H as <- <-. apply IH in E. cbn; lia. }
  intros [|c s] line rest H Hn; [congruence|]. cbn in H. destruct (c =? 10)%N; [injection H as <- <-; cbn; lia|]. destruct (fgets_split n s) as [l r] eqn:E. injection H as <- <-. apply G in E. cbn; lia.
Qed.
Lemma ends_lines key : forall fuel w, small w -> length (tw_stdin w) < fuel ->
  match crypt_lines fuel key w with (Ok _, _) => True | (Halt, _) => settled (tw_io w) < 2 * M * S (length (tw_stdin w)) | _ => False end.
Proof.
  induction fuel as [|fuel IH]; intros w Hw Hf; [lia|]. cbn [crypt_lines]. destruct (tw_stdin w) as [|c s] eqn:Es; [exact Logic.I|].
  set (S0 := c :: s) in *. destruct (fgets_split (N.to_nat 4095) S0) as [line rest] eqn:Ef.
  assert (Hr : length rest < length S0). { apply (fgets_shorter 4094 _ line); [|discriminate]. replace (S 4094) with (N.to_nat 4095) by (vm_compute; reflexivity). exact Ef. }
  pose proof (tends_one key (chomp (cstr line)) None (tw_set_stdin rest w) Hw) as T. unfold tbind.
  destruct (encrypt_one key (chomp (cstr line)) None (tw_set_stdin rest w)) as [[ok| | |] w1]; try contradiction; [|cbn [tw_io tw_set_stdin] in T; nia].
  destruct T as (_ & T1 & T2 & T3). cbn [tw_io tw_stdin tw_set_stdin] in T1, T3. destruct ok; cbn [negb]; [|exact Logic.I].
  specialize (IH w1 T2 ltac:(rewrite T3; lia)). destruct (crypt_lines fuel key w1) as [[c1| | |] w2]; auto. rewrite T3 in IH. nia.
Qed.
Lemma tool_ends argv w : small w -> M + 2 * M * S (length (tw_stdin w)) <= settled (tw_io w) -> exists status, fst (tool_main argv w) = Ok status.
Proof.
  intros Hw Hb. unfold tool_main. destruct argv as [|a0 [|cmd args]]; try (eexists; reflexivity). destruct (_ || _); [eexists; reflexivity|]. destruct (beq cmd (bs "crypt")); [|eexists; reflexivity].
  cbn [skipn]. unfold do_crypt. destruct args as [|spec rest]; [eexists; reflexivity|]. destruct (_ || _ || _)%bool; [eexists; reflexivity|].
  pose proof (tends_keyspec spec w Hw) as T. unfold tbind at 1. destruct (tparse_keyspec spec w) as [[k| | |] w1]; try contradiction; [|nia].
  destruct T as (_ & T1 & T2 & T3). destruct k as [key|]; [|eexists; reflexivity].
  pose proof (tends_tok w1 T2) as U. unfold tbind at 1. destruct (tok w1) as [[a| | |] w2]; try contradiction; [|nia].
  destruct U as (_ & U1 & U2 & U3). destruct (negb a); [eexists; reflexivity|]. destruct rest as [|input outs].
  - unfold tbind. pose proof (ends_lines key (S (length (tw_stdin w2))) w2 U2 ltac:(lia)) as L. destruct (crypt_lines _ key w2) as [[ok| | |] w3]; try contradiction; [eexists; reflexivity|].
    rewrite U3, T3 in L. nia.
  - unfold tbind. match goal with |- context [encrypt_one key input ?g w2] => pose proof (tends_one key input g w2 U2) as L; destruct (encrypt_one key input g w2) as [[ok| | |] w3] end; try contradiction; [eexists; reflexivity|].
    nia.
Qed.
End Tool.
