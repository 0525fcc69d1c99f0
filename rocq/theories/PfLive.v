(** Termination (C54). *)
From Coq Require Import Sorting.Permutation.
From Verif Require Import Base Lib Utils Sha Encrypt Discr Chunker Caibx Index StoreLocal Target StoreHttp Chain Ui MainProg
  SpecBasic SpecEnv SpecRun SpecLive PfUtils PfBasic PfIO PfReadonly PfMemory.
Local Open Scope nat_scope.

Lemma settled_le ev : settled ev <= length ev.
Proof. induction ev as [|[] ev IH]; cbn; lia. Qed.

Section Cost.
Variables (Z : nat -> N) (kc : bool).
Definition inv (w : world) : Prop := (forall i, (blen (w_files w i) <= Z i)%N) /\ (kc = false -> w_kcapi w = false).
Definition starved (B : nat) (w w' : world) : Prop :=
  (w_io w' = [] /\ settled (w_io w) < B) \/ (kc = true /\ w_kev w' = [] /\ ksettled (w_kev w) < B).
Definition within (B : nat) (w w' : world) : Prop :=
  inv w' /\ settled (w_io w) <= settled (w_io w') + B /\ (kc = true -> ksettled (w_kev w) <= ksettled (w_kev w') + B) /\ length (w_io w') <= length (w_io w).
(** [m] uses at most [B] answers; if it gets none any more, fewer than [B] were left. *)
Definition cost {A} (B : nat) (K : A -> Prop) (m : M A) : Prop := forall w, inv w ->
  match m w with (Ok a, w') => K a /\ within B w w' | (Halt, w') => starved B w w' | _ => True end.

Lemma within_refl w : inv w -> within 0 w w. Proof. repeat split; try apply H; intros; lia. Qed.
Lemma cost_ret A (K : A -> Prop) a : K a -> cost 0 K (ret a). Proof. intros H w Hw. cbn. split; [exact H|now apply within_refl]. Qed.
Lemma cost_ub A (K : A -> Prop) : cost 0 K ub. Proof. intros w _. exact Logic.I. Qed.
Lemma cost_abort A (K : A -> Prop) : cost 0 K abort. Proof. intros w _. exact Logic.I. Qed.
Lemma cost_le A B B' (J K : A -> Prop) m : cost B J m -> B <= B' -> (forall a, J a -> K a) -> cost B' K m.
Proof.
  intros H L HK w Hw. specialize (H w Hw). destruct (m w) as [[a| | |] w']; auto.
  - destruct H as (Ka & I & S1 & S2 & S3). split; [auto|]. repeat split; try apply I; try lia; intros X; specialize (S2 X); lia.
  - destruct H as [(H1 & H2)|(H1 & H2 & H3)]; [left|right]; repeat split; auto; lia.
Qed.
Lemma cost_bind A C B1 B2 (J : A -> Prop) (K : C -> Prop) m k : cost B1 J m -> (forall a, J a -> cost B2 K (k a)) -> cost (B1 + B2) K (bind m k).
Proof.
  intros Hm Hk w Hw. unfold bind. specialize (Hm w Hw). destruct (m w) as [[a| | |] w1]; auto.
  - destruct Hm as (Ja & I & S1 & S2 & S3). specialize (Hk a Ja w1 I). destruct (k a w1) as [[c| | |] w2]; auto.
    + destruct Hk as (Kc & I2 & T1 & T2 & T3). split; [exact Kc|]. repeat split; try apply I2; try lia; intros X; specialize (S2 X); specialize (T2 X); lia.
    + destruct Hk as [(H1 & H2)|(H1 & H2 & H3)]; [left|right]; repeat split; auto; try specialize (S2 H1); lia.
  - destruct Hm as [(H1 & H2)|(H1 & H2 & H3)]; [left|right]; repeat split; auto; lia.
Qed.
Lemma cost_seq A C B1 B2 B (J : A -> Prop) (K : C -> Prop) m k : cost B1 J m -> (forall a, J a -> cost B2 K (k a)) -> B1 + B2 <= B -> cost B K (bind m k).
Proof. intros H1 H2 L. eapply cost_le; [eapply cost_bind; eauto|exact L|auto]. Qed.
Lemma cost_free A C B (J : A -> Prop) (K : C -> Prop) m k : cost 0 J m -> (forall a, J a -> cost B K (k a)) -> cost B K (bind m k).
Proof. intros H1 H2. eapply cost_seq; eauto. Qed.
Lemma cost_le0 A B (K : A -> Prop) m : cost 0 K m -> cost B K m.
Proof. intros H. eapply cost_le; [exact H|lia|auto]. Qed.
Lemma cost_fun A B (K : A -> Prop) (m : world -> M A) : (forall w0, cost B K (m w0)) -> cost B K (fun w => m w w).
Proof. intros H w. apply H. Qed.
Lemma cost_if A B (K : A -> Prop) (c : bool) m1 m2 : cost B K m1 -> cost B K m2 -> cost B K (if c then m1 else m2).
Proof. now destruct c. Qed.
Definition any {A} (_ : A) : Prop := True.
Lemma cost_any A B (J : A -> Prop) m : cost B J m -> cost B any m.
Proof. intros H. eapply cost_le; [exact H|lia|]. intros; exact Logic.I. Qed.
Lemma cost_alloc : cost 0 any alloc.
Proof. intros w Hw. unfold alloc. destruct (w_alloc w); (split; [exact Logic.I|]); repeat split; try apply Hw; cbn; intros; lia. Qed.
Lemma cost_trace t : cost 0 any (trace t).
Proof. intros w Hw. cbn. split; [exact Logic.I|]. repeat split; try apply Hw; cbn; intros; lia. Qed.
Lemma cost_assert b : cost 0 any (u_assert b).
Proof. destruct b; [now apply cost_ret|apply cost_abort]. Qed.
Lemma cost_lift A (o : outcome A) : o <> Halt -> cost 0 (fun a => o = Ok a) (lift o).
Proof. intros H w Hw. unfold lift. destruct o; [|exact Logic.I..|congruence]. split; [reflexivity|now apply within_refl]. Qed.

(** ** System calls *)
Lemma read_loop_cost ev : forall avail len got,
  match read_loop avail len ev got with
  | (r, _, ev') => length ev' <= length ev /\ (r = IoHalt -> ev' = [] /\ settled ev < N.to_nat len) /\ settled ev <= settled ev' + N.to_nat len
  end.
Proof.
  induction ev as [|e ev IH]; intros avail len got; cbn [read_loop].
  - destruct (len =? 0)%N eqn:L; cbn; repeat split; try discriminate; auto; lia.
  - destruct (len =? 0)%N eqn:L; [repeat split; try discriminate; lia|]. destruct e as [k| | |].
    + set (n := N.min (N.of_nat (S k)) (N.min len (blen avail))). destruct (n =? 0)%N eqn:En; [cbn; repeat split; try discriminate; lia|].
      specialize (IH (skipn (N.to_nat n) avail) (len - n)%N (got ++ firstn (N.to_nat n) avail)). destruct (read_loop _ _ _ _) as [[r g] ev'].
      assert (n <= len)%N by (unfold n; lia). destruct IH as (A & B & C). cbn [length settled]. split; [lia|]. split; [|lia]. intros X; destruct (B X) as (B1 & B2); split; [exact B1|lia].
    + specialize (IH avail len got). destruct (read_loop _ _ _ _) as [[r g] ev']. destruct IH as (A & B & C). cbn [length settled]. split; [lia|]. split; [|lia]. intros X; destruct (B X) as (B1 & B2); split; [exact B1|lia].
    + cbn; repeat split; try discriminate; lia.
    + cbn; repeat split; try discriminate; lia.
Qed.
Lemma cost_pread ino len off : cost (N.to_nat len) (fun r => length (snd r) <= N.to_nat len) (preadall ino len off).
Proof.
  intros w Hw. unfold preadall. destruct (len =? 0)%N eqn:L.
  { split; [cbn; lia|]. repeat split; try apply Hw; intros; lia. }
  destruct (OFF_LIMIT <=? off)%N.
  { destruct (w_io w) as [|e ev] eqn:Ew; [left; rewrite Ew; cbn; split; [reflexivity|lia]|]. split; [cbn; lia|].
    repeat split; try apply Hw; cbn; rewrite ?Ew; cbn; [|intros; lia|lia]. destruct e; cbn; lia. }
  set (av := skipn _ (w_files w ino)). pose proof (read_loop_cost (w_io w) av len []) as C. pose proof (fun r g e => read_loop_spec (w_io w) av len [] r g e) as S.
  destruct (read_loop av len (w_io w) []) as [[r got] ev'] eqn:ER. specialize (S r got ev' eq_refl). destruct C as (C1 & C2 & C3).
  assert (Wi : forall x, length got <= N.to_nat len -> length (snd (x : bool, got)) <= N.to_nat len /\ within (N.to_nat len) w (set_io ev' w)).
  { intros x Hl. split; [exact Hl|]. repeat split; try apply Hw; cbn; intros; lia. }
  destruct r; auto.
  - apply Wi. destruct S as (S1 & ->). cbn. rewrite firstn_length. lia.
  - apply Wi. destruct S as (n & S1 & S2 & ->). cbn. rewrite firstn_length. lia.
  - left. cbn. destruct (C2 eq_refl). auto.
Qed.
Lemma cost_readall ino pos len : cost (N.to_nat len) (fun r => length (snd r) <= N.to_nat len) (readall ino pos len).
Proof. apply cost_pread. Qed.
Lemma cost_fd_size E ino : cost 0 (fun r => forall s, r = Some s -> (s <= Z ino)%N) (fd_size E ino).
Proof.
  intros w Hw. unfold fd_size. destruct (e_kind E ino); (split; [|now apply within_refl]); intros s [= <-]; apply Hw.
Qed.

Lemma file_write_length f off d : length (file_write f off d) = Nat.max (length f) (off + length d).
Proof. unfold file_write. rewrite !app_length, repeat_length, firstn_length, skipn_length. lia. Qed.
Lemma pwrite_loop_cost k lim : forall ev f off data wr, (blen f <= lim)%N -> (OFF_LIMIT + blen data <= lim)%N ->
  match pwrite_loop k f off data ev wr with
  | (r, f', _, ev') => (blen f' <= lim)%N /\ length ev' <= length ev /\ (r = IoHalt -> ev' = [] /\ settled ev < length data) /\ settled ev <= settled ev' + length data
  end.
Proof.
  induction ev as [|e ev IH]; intros f off data wr Hf Hd; cbn [pwrite_loop].
  - destruct data; cbn; repeat split; try discriminate; auto; lia.
  - destruct data as [|b0 data0]; [repeat split; try discriminate; auto; lia|]. set (data := b0 :: data0) in *. assert (Hpos : 0 < length data) by (cbn; lia).
    destruct e as [m| | |].
    + destruct (write_room k f off _) as [n|] eqn:Er; [|cbn; repeat split; try discriminate; auto; lia].
      assert (Hn : (0 < n /\ n <= blen data /\ off < OFF_LIMIT)%N).
      { unfold write_room in Er. destruct (OFF_LIMIT <=? off)%N eqn:Eo; [discriminate|]. destruct k; try discriminate.
        - injection Er as <-. unfold blen. lia.
        - destruct (blen f <=? off)%N eqn:Ef; [discriminate|]. injection Er as <-. unfold blen in *. lia. }
      assert (Hlen : length (firstn (N.to_nat n) data) = N.to_nat n) by (rewrite firstn_length; unfold blen in *; lia).
      assert (Hsk : length (skipn (N.to_nat n) data) = length data - N.to_nat n) by apply skipn_length.
      specialize (IH (file_write f (N.to_nat off) (firstn (N.to_nat n) data)) (off + n)%N (skipn (N.to_nat n) data) ((off, firstn (N.to_nat n) data) :: wr)).
      destruct (pwrite_loop _ _ _ _ _ _) as [[[r f'] wr'] ev'].
      destruct IH as (A & B & C & D).
      * unfold blen in *. rewrite file_write_length, Hlen. lia.
      * unfold blen in *. rewrite Hsk. lia.
      * cbn [length settled]. unfold blen in Hn. split; [exact A|]. split; [lia|]. split; [|lia]. intros X; destruct (C X) as (C1 & C2); split; [exact C1|lia].
    + specialize (IH f off data wr Hf Hd). destruct (pwrite_loop _ _ _ _ _ _) as [[[r f'] wr'] ev']. destruct IH as (A & B & C & D). cbn [length settled].
      split; [exact A|]. split; [lia|]. split; [|lia]. intros X; destruct (C X) as (C1 & C2); split; [exact C1|lia].
    + cbn; repeat split; try discriminate; auto; lia.
    + cbn; repeat split; try discriminate; auto; lia.
Qed.
Lemma cost_pwrite E ino data off : (OFF_LIMIT + blen data <= Z ino)%N -> cost (length data) any (pwriteall E ino data off).
Proof.
  intros HZ w (Hf & Hk). unfold pwriteall. pose proof (pwrite_loop_cost (e_kind E ino) (Z ino) (w_io w) (w_files w ino) off data [] (Hf ino) HZ) as C.
  destruct (pwrite_loop _ _ _ _ _ _) as [[[r f'] wr] ev']. destruct C as (C1 & C2 & C3 & C4).
  set (w' := mkWorld _ _ _ _ _ _ _).
  assert (I' : inv w'). { split; [|exact Hk]. intros i. unfold w'. cbn. unfold upd_file. destruct (Nat.eqb_spec i ino); subst; auto. }
  assert (Wi : within (length data) w w') by (repeat split; try apply I'; cbn; intros; lia).
  destruct r; auto; try (split; [exact Logic.I|exact Wi]). left. cbn. destruct (C3 eq_refl). auto.
Qed.

Lemma kc_send_cost kv : forall data,
  match kc_send data kv with (r, kv') => (forall u, r = inr u -> kv' = [] /\ ksettled kv < length data) /\ ksettled kv <= ksettled kv' + length data end.
Proof.
  induction kv as [|e kv IH]; intros data; cbn [kc_send]; (destruct data as [|b0 data0]; [split; [discriminate|lia]|]).
  - cbn. split; [intros; split; [reflexivity|lia]|lia].
  - set (data := b0 :: data0). assert (Hp : 0 < length data) by (cbn; lia).
    assert (G : forall k, match kc_send (skipn (Nat.min (S k) (length data)) data) kv with (r, kv') => (forall u, r = inr u -> kv' = [] /\ S (ksettled kv) < length data) /\ S (ksettled kv) <= ksettled kv' + length data end).
    { intros k. specialize (IH (skipn (Nat.min (S k) (length data)) data)). rewrite skipn_length in IH. destruct (kc_send _ _) as [r kv']. destruct IH as (A & B).
      split; [intros u X; destruct (A u X); split; [assumption|lia]|lia]. }
    destruct e; cbn [ksettled]; first [apply G|apply IH|split; [discriminate|lia]].
Qed.
Lemma kc_recv_cost kv : match kc_recv kv with (r, kv') => (forall u, r = inr u -> kv' = [] /\ ksettled kv < 1) /\ ksettled kv <= ksettled kv' + 1 end.
Proof.
  induction kv as [|e kv IH]; cbn [kc_recv]; [cbn; split; [intros; split; [reflexivity|lia]|lia]|]. destruct e; cbn [ksettled]; try (split; [discriminate|lia]). exact IH.
Qed.
Lemma cost_sha E data : cost (length data + 1) any (sha_once E data).
Proof.
  intros w (Hf & Hk). unfold sha_once. destruct (w_kcapi w) eqn:Ek; cbn [negb].
  2:{ split; [exact Logic.I|]. repeat split; auto; intros; lia. }
  assert (Hc : kc = true) by (destruct kc; [reflexivity|specialize (Hk eq_refl); discriminate]).
  pose proof (kc_send_cost (w_kev w) data) as C. destruct (kc_send data (w_kev w)) as [[[rest|]|u] kv].
  - destruct C as (_ & C). split; [exact Logic.I|]. repeat split; auto; cbn; try lia; congruence.
  - destruct C as (_ & C). pose proof (kc_recv_cost kv) as D. destruct (kc_recv kv) as [[[]|u] kv']; destruct D as (D1 & D2).
    + split; [exact Logic.I|]. repeat split; auto; cbn; try lia; congruence.
    + split; [exact Logic.I|]. repeat split; auto; cbn; try lia; congruence.
    + right. cbn. destruct (D1 u eq_refl). repeat split; auto. lia.
  - destruct C as (C & _). right. destruct (C u eq_refl). cbn. repeat split; auto. lia.
Qed.

(** ** The chunker *)
Definition pending (c : chunker) : Prop := c_fill c < WIN \/ chunker_shall_break c = Some false.
Lemma scan_loop_step p disc : forall buf h size win idx n n' h' size' win' brk, scan_loop p disc h size win idx buf n = Some (n', h', size', win', brk) ->
  if (brk : bool) then n < n' else n <= n' /\ (shall_break p disc h size = Some false -> shall_break p disc h' size' = Some false).
Proof.
  induction buf as [|x buf IH]; intros h size win idx n n' h' size' win' brk H; cbn [scan_loop] in H; [injection H as <- <- <- <- <-; auto|].
  destruct (shall_break p disc _ (size + 1)) as [[]|] eqn:Eb; [injection H as <- <- <- <- <-; lia| |discriminate].
  apply IH in H. destruct brk; [lia|]. destruct H as (A & B). split; [lia|auto].
Qed.
Lemma chunker_scan_step c buf r c' : chunker_scan c buf = Ok (r, c') -> pending c -> buf <> [] ->
  match r with Some n => 0 < n | None => pending c' end.
Proof.
  intros H HP Hb. unfold chunker_scan in H. assert (Hl : 0 < length buf) by (destruct buf; [congruence|cbn; lia]).
  destruct (Nat.ltb_spec (c_fill c) WIN) as [Lt|Ge]; cbn [negb] in H.
  - set (tc := Nat.min (length buf) (WIN - c_fill c)) in *. assert (Htc : 0 < tc) by lia. cbn [c_fill] in H.
    destruct (Nat.ltb_spec (c_fill c + tc) WIN) as [L2|G2]; [injection H as <- <-; left; exact L2|].
    destruct (chunker_shall_break _) as [[]|] eqn:Eb in H; [injection H as <- <-; exact Htc| |discriminate].
    destruct (scan_loop _ _ _ _ _ _ _ _) as [[[[[n h] size] win] brk]|] eqn:Es; [|discriminate]. injection H as <- <-. apply scan_loop_step in Es. destruct brk; [lia|].
    right. apply Es. exact Eb.
  - destruct (Nat.ltb_spec (c_fill c + 0) WIN) as [L2|G2] in H; cbn [c_fill] in H; [rewrite (proj2 (Nat.ltb_lt _ _) L2) in H; lia|].
    rewrite (proj2 (Nat.ltb_ge _ _) G2) in H. destruct HP as [HP|HP]; [lia|].
    replace (chunker_shall_break _) with (Some false) in H. 2:{ rewrite <- HP. unfold chunker_shall_break. cbn. now rewrite N.add_0_r. }
    destruct (scan_loop _ _ _ _ _ _ _ _) as [[[[[n h] size] win] brk]|] eqn:Es; [|discriminate]. injection H as <- <-. apply scan_loop_step in Es. destruct brk; [lia|].
    right. apply Es. unfold chunker_shall_break in HP. cbn. rewrite N.add_0_r. exact HP.
Qed.
Lemma pending_reset c : pending (chunker_reset c). Proof. left. cbn. unfold WIN. lia. Qed.

Section Scan.
Context {A : Type}.
Variables (cb : N -> N -> bytes -> A -> M (bool * A)).
Hypothesis Hcb : forall o l i a, cost 0 any (cb o l i a).
Lemma cost_scan_buf E : forall fuel buf st, length buf < fuel -> pending (sc_c st) ->
  cost 0 (fun r : bool * @scan_st A => fst r = true -> pending (sc_c (snd r))) (scan_buf cb E fuel buf st).
Proof.
  induction fuel as [|fuel IH]; intros buf st Hf HP; [lia|]. cbn [scan_buf]. destruct buf as [|x buf0]; [now apply cost_ret|]. set (buf := x :: buf0) in *.
  assert (Hb : buf <> []) by discriminate. clearbody buf. clear buf0.
  eapply cost_free; [apply (cost_lift _ (chunker_scan (sc_c st) buf))|].
  { unfold chunker_scan. repeat (match goal with |- context [match ?x with _ => _ end] => destruct x end; try discriminate). }
  intros [r c] Hr. apply chunker_scan_step in Hr; [|exact HP|exact Hb]. destruct r as [n|]; [|now apply cost_ret].
  cbv zeta. eapply cost_free; [apply Hcb|]. intros [ok a] _. destruct ok; cbn [negb]; [|now apply cost_ret].
  apply IH; [rewrite skipn_length; destruct buf; [congruence|]; cbn [length] in *; lia|]. apply pending_reset.
Qed.
(** One read(2): nothing, or a piece of what is there. *)
Lemma cost_scan_reads E ino : forall fuel pos st w, inv w -> length (w_io w) < fuel -> pending (sc_c st) -> (pos <= Z ino)%N ->
  match scan_reads cb E fuel ino pos st w with
  | (Ok _, w') => within (N.to_nat (Z ino - pos) + 1) w w' /\ w_io w <> [] | (Halt, w') => starved (N.to_nat (Z ino - pos) + 1) w w' | _ => True end.
Proof.
  induction fuel as [|fuel IH]; intros pos st w Hw Hf HP Hpos; [lia|]. cbn [scan_reads]. unfold bind at 1, read1.
  destruct (w_io w) as [|e ev] eqn:Ew; [left; rewrite Ew; cbn; split; [reflexivity|lia]|]. cbn [length] in Hf.
  assert (Hw1 : inv (set_io ev w)) by exact Hw.
  assert (Done : (forall r, e <> IoIntr -> match @ret (bool * @scan_st A) r (set_io ev w) with (Ok _, w') => within (N.to_nat (Z ino - pos) + 1) w w' /\ e :: ev <> [] | (Halt, w') => starved (N.to_nat (Z ino - pos) + 1) w w' | _ => True end)).
  { intros r He. cbn. split; [|discriminate]. split; [exact Hw|]. rewrite Ew. cbn. split; [destruct e; cbn; lia|]. split; [intros; lia|lia]. }
  destruct e as [k| | |]; try (apply Done; discriminate).
  - set (f := w_files w ino). set (d := firstn (N.to_nat (N.min (N.of_nat (S k)) BUFSIZ)) (skipn (N.to_nat (N.min pos (blen f))) f)).
    destruct d as [|x d0] eqn:Ed; [apply Done; discriminate|]. fold d. rewrite <- Ed.
    assert (Hd : 0 < length d /\ (pos + blen d <= Z ino)%N).
    { rewrite Ed at 1. split; [cbn; lia|]. pose proof (proj1 Hw ino) as Hz. fold f in Hz. assert (L : length d <= length f - N.to_nat (N.min pos (blen f))) by (unfold d; rewrite firstn_length, skipn_length; lia).
      assert (0 < length d) by (rewrite Ed; cbn; lia). unfold blen in *. lia. }
    clearbody d. clear Ed d0 x. unfold bind at 1.
    assert (CB := cost_scan_buf E (S (length d)) d st ltac:(lia) HP (set_io ev w) Hw1).
    destruct (scan_buf cb E (S (length d)) d st (set_io ev w)) as [[[ok st2]| | |] w1]; auto.
    + destruct CB as (HP2 & I1 & S1 & S2 & S3). cbn [fst snd w_io w_kev set_io] in *. destruct ok; cbn [negb].
      * specialize (IH (pos + blen d)%N st2 w1 I1 ltac:(lia) (HP2 eq_refl) (proj2 Hd)).
        assert (blen d = N.of_nat (length d)) by reflexivity.
        destruct (scan_reads _ _ _ _ _ _ _) as [[r| | |] w2]; auto.
        -- destruct IH as ((I2 & T1 & T2 & T3) & _). split; [|discriminate]. split; [exact I2|]. rewrite Ew. cbn [settled length]. split; [lia|]. split; [|lia]. intros X. specialize (S2 X). specialize (T2 X). lia.
        -- destruct IH as [(H1 & H2)|(H1 & H2 & H3)]; [left|right]; rewrite ?Ew; cbn [settled]; repeat split; auto; [lia|]. specialize (S2 H1). lia.
      * cbn. split; [|discriminate]. split; [exact I1|]. rewrite Ew. cbn [settled length]. split; [lia|]. split; [|lia]. intros X. specialize (S2 X). lia.
    + destruct CB as [(H1 & H2)|(H1 & H2 & H3)]; lia.
  - specialize (IH pos st (set_io ev w) Hw1 ltac:(cbn; lia) HP Hpos). destruct (scan_reads _ _ _ _ _ _ _) as [[r| | |] w2]; auto.
    + destruct IH as ((I2 & T1 & T2 & T3) & _). split; [|discriminate]. split; [exact I2|]. rewrite Ew. cbn [settled length w_io w_kev set_io] in *. split; [lia|]. split; [exact T2|lia].
    + destruct IH as [(H1 & H2)|(H1 & H2 & H3)]; [left|right]; rewrite ?Ew; cbn [settled w_io w_kev set_io] in *; repeat split; auto.
Qed.
Lemma cost_scan_fd E ino p a : cost (N.to_nat (Z ino) + 1) any (chunker_scan_fd cb E ino p a).
Proof.
  unfold chunker_scan_fd. eapply cost_free; [apply (cost_lift _ (chunker_init p)); unfold chunker_init; destruct (discriminator_from_avg _); discriminate|].
  intros c Hc. eapply (cost_seq _ _ (N.to_nat (Z ino) + 1) 0 _ any); [| |lia].
  - intros w Hw. assert (HP : pending c). { unfold chunker_init in Hc. destruct (discriminator_from_avg _); [|discriminate]. injection Hc as <-. apply pending_reset. }
    assert (X := cost_scan_reads E ino (S (length (w_io w))) 0 (mkScan c 0 0 a) w Hw ltac:(lia) HP ltac:(lia)).
    rewrite N.sub_0_r in X. destruct (scan_reads _ _ _ _ _ _ _) as [[r| | |] w2]; auto. split; [exact Logic.I|apply X].
  - intros [ok st] _. destruct (negb ok); [now apply cost_ret|]. destruct (_ =? _)%N; [now apply cost_ret|]. apply Hcb.
Qed.
Lemma scan_fd_reads E ino p a w r w' : inv w -> chunker_scan_fd cb E ino p a w = (Ok r, w') -> w_io w <> [].
Proof.
  intros Hw H C. unfold chunker_scan_fd, bind at 1, lift in H. destruct (chunker_init p) as [c| | |] eqn:Ec; try discriminate.
  unfold bind at 1 in H. cbn in H. rewrite C in H. cbn [length] in H. cbn [scan_reads] in H. unfold bind, read1 in H. rewrite C in H. discriminate.
Qed.
End Scan.

(** ** Reading an index *)
Lemma cost_section ino pos : cost 16 any (load_section_header ino pos).
Proof. unfold load_section_header. eapply cost_seq; [apply cost_readall| |]; [intros [ok b] _; destruct (negb ok); now apply cost_ret|lia]. Qed.
Lemma cost_load_header E ino : cost 104 (fun r => match r with Some (_, n) => (n <= Z ino)%N | None => True end) (caibx_load_header E ino).
Proof.
  unfold caibx_load_header. eapply cost_free; [apply cost_fd_size|]. intros [size|] Hs; [|apply cost_le0; now apply cost_ret]. specialize (Hs size eq_refl).
  destruct (size <? _)%N; [apply cost_le0; now apply cost_ret|]. destruct (negb _); [apply cost_le0; now apply cost_ret|]. cbv zeta.
  eapply (cost_seq _ _ 48 56 _ any); [| |lia].
  - unfold load_index_header. eapply (cost_seq _ _ 16 32 _ any); [apply cost_section| |lia]. intros [[mg len]|] _; [|apply cost_le0; now apply cost_ret].
    destruct (negb _); [apply cost_le0; now apply cost_ret|]. destruct (_ <? _)%N; [apply cost_le0; now apply cost_ret|].
    eapply (cost_seq _ _ 32 0 _); [apply cost_readall| |lia]. intros [ok b] _. destruct (negb ok); [now apply cost_ret|]. destruct (negb _); now apply cost_ret.
  - intros [p|] _; [|apply cost_le0; now apply cost_ret]. eapply (cost_seq _ _ 16 40 _ any); [| |lia].
    + unfold validate_table_header. eapply (cost_seq _ _ 16 0 _ any); [apply cost_section| |lia]. intros [[mg len]|] _; now apply cost_ret.
    + intros ok _. destruct (negb ok); [apply cost_le0; now apply cost_ret|]. eapply (cost_seq _ _ 40 0 _ any); [| |lia].
      * unfold validate_table_footer. eapply (cost_seq _ _ 40 0 _); [apply cost_readall| |lia]. intros [ok' b] _. destruct (negb ok'); now apply cost_ret.
      * intros ok' _. apply cost_ret. destruct ok'; [|exact Logic.I].
        assert (forall a b c, (a - b - c) / CA_TABLE_ENTRY_LEN <= a)%N. { intros a b c. transitivity (a - b - c)%N; [apply N.div_le_upper_bound; [discriminate|unfold CA_TABLE_ENTRY_LEN; lia]|lia]. }
        transitivity size; [apply H|exact Hs].
Qed.
Section Iter.
Context {A : Type}.
Variables (cb : N -> N -> bytes -> A -> M (bool * A)) (K : A -> Prop) (C : nat).
Hypothesis Hcb : forall o l i a, K a -> cost C (fun r => K (snd r)) (cb o l i a).
Lemma cost_iterate ino p n : forall k i last a, K a -> cost (k * (40 + C)) (fun r => K (snd r)) (iterate_loop cb ino p n k i last a).
Proof.
  induction k as [|k IH]; intros i last a Ha; cbn [iterate_loop]; [now apply cost_ret|].
  eapply (cost_seq _ _ 40 (C + k * (40 + C))); [apply cost_readall| |cbn; lia]. intros [ok b] _. destruct (negb ok); [apply cost_le0; now apply cost_ret|]. cbv zeta.
  destruct (_ && _); [eapply cost_le; [now apply IH|lia|auto]|]. eapply cost_bind; [now apply Hcb|]. intros [ok' a'] Ha'. destruct (negb ok'); [apply cost_le0; now apply cost_ret|]. now apply IH.
Qed.
End Iter.
End Cost.
