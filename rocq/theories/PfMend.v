(** Damaged local stores, and targets that hold the beginning of the image (C94). *)
From Coq Require Import Sorting.Permutation.
From Verif Require Import Base Lib Utils Sha Encrypt Chunker Caibx Index StoreLocal Target StoreHttp Chain Ui MainProg
  SpecBasic SpecCrypto SpecEnv SpecChunker SpecStore SpecHttp SpecCaibx SpecMain SpecRun SpecLive SpecAvail SpecProgress SpecDelta SpecSupply SpecResume SpecUpdate SpecMend
  PfUtils PfBasic PfIO PfRead PfKeyspec PfIndex PfFrame PfChunker PfChunkProps PfLocal PfLocal2 PfHttp PfCaibx PfCaibx2 PfTarget PfChain PfMain PfMain2 PfSetup PfRun PfSync PfLive PfLive2 PfAvail PfDelta PfSupply PfStart.
Local Open Scope N_scope.

(** ** One request *)
Section Mend.
Variables (E : env) (sino : nat) (g : bytes) (cp : params) (D : N).
(** [right]: the index describes the file.  [ids]: what is relied on. *)
Variables (right : Prop) (ids : bytes -> Prop).
Hypothesis (HE : env_ok E) (Hd : disc_of cp D) (Hmax : p_max cp <= BUF_SIZE) (Hg : blen g < OFF_LIMIT) (Hkind : e_kind E sino <> KOther).
Hypothesis (Hp : 0 < p_avg cp) (Hlarge : 5 * p_avg cp <= 6 * blen g) (Hlim : blen g < 2 ^ 60).
Hypothesis (Hids : forall id, ids id -> ~ right -> exists c, In c (chunks cp D g) /\ e_H E c = id).
Definition fine (e : entry) : Prop := e_H E (slice_N (en_start e) (en_len e) g) = en_id e.
Definition mend (x : index) : Prop :=
  idx_ok x /\ (forall e, In e (ix_entries x) -> (0 < en_len e <= BUF_SIZE /\ en_start e + en_len e <= blen g) /\ (validated e \/ right -> fine e)) /\
  forall id, ids id -> exists e, In e (ix_entries x) /\ en_id e = id.
Definition mended (ls : lstore) : Prop := ls_ino ls = sino /\ ls_params ls = cp /\ mend (ls_idx ls).

Lemma mend_perm x x' : Permutation (ix_entries x) (ix_entries x') -> idx_ok x' -> mend x -> mend x'.
Proof.
  intros P Hx (_ & A & B). split; [exact Hx|]. split.
  - intros e He. apply A. eapply Permutation_in; [symmetry; exact P|exact He].
  - intros id Hid. destruct (B id Hid) as (e & C & F). exists e. split; [eapply Permutation_in; eauto|exact F].
Qed.
Lemma mend_flags x pos e : nth_error (ix_entries x) pos = Some e -> fine e -> mend x -> mend (index_or_flags x pos INDEX_FLAG_VALIDATED).
Proof.
  intros Hn Hfine (Hx & A & B). destruct (or_flags_spec x pos e Hn Hx) as (C & _ & F). split; [exact C|]. split.
  - intros e' He'. destruct (F e' He') as [G| ->]; [apply A, G|]. destruct (A e) as (A1 & _); [eapply nth_error_In; eauto|]. split; [exact A1|intros _; exact Hfine].
  - intros id Hid. destruct (B id Hid) as (e1 & G & G'). unfold index_or_flags. rewrite Hn. cbn [ix_entries]. set (e2 := mkEntry _ _ _ _).
    apply In_nth_error in G as (j & Hj). destruct (Nat.eq_dec j pos) as [->|Hne].
    + exists e2. split; [|unfold e2; cbn; congruence]. apply (nth_error_In _ pos). rewrite nth_error_upd_nth, Nat.eqb_refl. assert (pos < length (ix_entries x))%nat as L by (apply nth_error_Some; congruence).
      apply Nat.ltb_lt in L. now rewrite L.
    + exists e1. split; [|exact G']. apply (nth_error_In _ j). rewrite nth_error_upd_nth. destruct (Nat.eqb_spec j pos); [contradiction|exact Hj].
Qed.
Lemma mend_scanned x : idx_ok x -> scanned E cp D g False (ix_entries x) -> ~ right -> mend x.
Proof.
  intros Hx (done & t & S1 & S2 & [->|[]] & S3) Hr. rewrite app_nil_r in S2. rewrite <- S2 in S1. subst done. split; [exact Hx|]. rewrite S3. unfold scan_entries. split.
  - intros e He'. assert (Ts : forall l off, Forall (fun x => 0 < blen x <= BUF_SIZE) l -> Forall (fun e => 0 < en_len e <= BUF_SIZE) (map scan_entry (tiles E off l))).
    { induction l as [|y l IH]; intros off F; cbn; [constructor|]. inversion F; subst. constructor; [assumption|]. now apply IH. }
    assert (Sz : Forall (fun x => 0 < blen x <= BUF_SIZE) (chunks cp D g)).
    { apply Forall_forall. intros y Hin. pose proof (chunks_nonempty cp D g) as Ne. rewrite Forall_forall in Ne. specialize (Ne y Hin). apply in_split in Hin as (l1 & l2 & Hl). destruct (chunks_sizes _ _ _ _ _ _ Hl) as (Z1 & _).
      split; [unfold blen; destruct y; [contradiction|cbn; lia]|]. unfold BUF_SIZE in *. lia. }
    specialize (Ts _ 0 Sz). rewrite Forall_forall in Ts. specialize (Ts e He').
    pose proof (tiles_good E true (chunks cp D g) 0 g []) as G. rewrite app_nil_r, chunks_concat in G. specialize (G ltac:(cbn; lia) eq_refl). rewrite Forall_forall in G.
    destruct (G e He') as ([G1|G1] & G2); [|lia]. split; [split; [exact Ts|exact G1]|]. intros _. exact G2.
  - intros id Hid. destruct (Hids id Hid Hr) as (c & Hc & <-). assert (Ti : forall l off, In c l -> exists e, In e (map scan_entry (tiles E off l)) /\ en_id e = e_H E c).
    { induction l as [|y l IH]; intros off [].
      - subst y. eexists. split; [left; reflexivity|reflexivity].
      - destruct (IH (off + blen y) H) as (e & A & B). exists e. split; [right; exact A|exact B]. }
    apply Ti, Hc.
Qed.

Lemma wp_get_mended ls id out w : w_files w sino = g -> mended ls -> blen out = BUF_SIZE -> error_free (w_io w) -> w_alloc w = [] -> kc_clean w ->
  wp (store_local_get_chunk E ls id out) (fun x w' => let '(r, _, ls') := x in mended ls' /\ exists m, r = Some m /\ (ids id -> 0 < m)) (fun bd _ => bd = BHalt) w.
Proof.
  intros Hf (Hi & Hpr & Hm) Hl He Ha Hc. pose proof Hm as (Hx & A & B). destruct HE as (HH & Hq & Hb & Hz). unfold store_local_get_chunk.
  change (wp (local_get_loop E (S (length (w_io w))) ls id out) (fun x w' => let '(r, _, ls') := x in mended ls' /\ exists m, r = Some m /\ (ids id -> 0 < m)) (fun bd _ => bd = BHalt) w).
  assert (Ans : forall es out0 w0 r out', (forall e, In e es -> 0 < en_len e <= BUF_SIZE /\ en_start e + en_len e <= blen g) -> (forall id, ids id -> exists e, In e es /\ en_id e = id) -> blen out0 = BUF_SIZE -> error_free (w_io w0) ->
     answered (~ error_free (w_io w0)) es g id out0 r out' -> exists m, r = Some m /\ (ids id -> 0 < m)).
  { intros es out0 w0 r out' A0 B0 L0 E0 An. remember r as r0 eqn:Er. destruct An as [An|e A1 A2 A3|e n A1 A2 A3 A4 A5 A6|e A1 A2 A3 A4 A5].
    - exists 0. split; [reflexivity|]. intros Hid. destruct (B0 id Hid) as (e & C & F). elim (An e C F).
    - destruct (A0 e A1) as (C & _). lia.
    - destruct (A0 e A1) as (C & F). destruct A6 as [A6|[A6|A6]]; [contradiction|lia|lia].
    - destruct (A0 e A1) as (C & _). exists (en_len e). split; [reflexivity|lia]. }
  apply wp_get_read with (f := g); auto.
  - congruence.
  - intros r out' x' An Hx' P ev _ _. split.
    + split; [exact Hi|]. split; [exact Hpr|]. cbn [set_idx ls_idx]. eapply mend_perm; eauto.
    + eapply Ans; [| | | |exact An]; auto. intros e He0. apply A, He0.
  - intros x' pos e ev Hx' P N1 N2 Nv Ll Lr Hs Hbl. apply wp_bind.
    assert (He' : In e (ix_entries (ls_idx ls))) by (eapply Permutation_in; [symmetry; exact P|eapply nth_error_In; eauto]).
    destruct (A e He') as ((S1 & S2) & S3). pose proof (mend_perm _ _ P Hx' Hm) as Hm'.
    apply wp_chunk_id with (b := false); [discriminate| |auto].
    intros kk kv actual Q2 _ Hcl. rewrite (Hcl Hc). destruct (beq id (e_H E (slice_N (en_start e) (en_len e) g))) eqn:Eb.
    + apply beq_eq in Eb. apply wp_ret. split.
      * split; [exact Hi|]. split; [exact Hpr|]. cbn [set_idx ls_idx]. eapply mend_flags; [exact N1| |exact Hm']. unfold fine. congruence.
      * exists (en_len e). split; [reflexivity|lia].
    + apply beq_neq in Eb. assert (Hnr : ~ right) by (intros R; apply Eb; rewrite <- N2; symmetry; apply S3; now right).
      apply wp_bind. unfold index_cleanup. pose proof Hx' as (Hp' & _). rewrite Hp'. apply wp_ret, wp_bind.
      set (out1 := overlay _ out). assert (Lo : blen out1 = BUF_SIZE). { rewrite <- Hl. unfold blen. f_equal. apply length_overlay. unfold blen in *. lia. }
      set (w1 := set_kcapi kk kv (set_io ev w)) in *. set (ls1 := set_idx (set_idx ls x') _).
      assert (F1 : w_files w1 sino = g) by exact Hf. assert (E1 : error_free (w_io w1)) by (cbn; eapply error_free_suffix; eauto).
      apply (wp_store_scan E ls1 D w1); cbn [ls1 set_idx ls_ino ls_params]; rewrite ?Hi, ?Hpr, ?F1; auto.
      * unfold BUF_SIZE, UINT32_MAX in *. lia.
      * intros x w2 Q3 I1 I2 I3 I4. cbn [negb]. destruct (length (w_io w)) as [|m] eqn:Em.
        { destruct Hs as (pre & Hpre). apply (f_equal (@length _)) in Hpre. rewrite app_length in Hpre. cbn in I3. lia. }
        assert (Sc : scanned E cp D g False (ix_entries x)).
        { destruct I2 as (done & t & J1 & J2 & J3 & J4). exists done, t. repeat split; auto. destruct J3 as [J3|J3]; [now left|right]. unfold error_free in E1. rewrite Forall_forall in E1. elim (E1 _ J3). }
        pose proof (mend_scanned x I1 Sc Hnr) as Hm2. pose proof Hm2 as (_ & A2 & B2).
        assert (E2 : error_free (w_io w2)). { destruct Q3 as (_ & Hsuf & _). eapply error_free_suffix; eauto. }
        assert (F2 : w_files w2 (ls_ino ls) = g) by (rewrite Hi, (quiet0_files _ _ Q3); exact F1).
        apply wp_get_read with (f := g); auto.
        -- intros r out' x2 An Hx2 P2 ev2 _ _. split; [split; [exact Hi|]; split; [exact Hpr|]; cbn [set_idx ls_idx]; eapply mend_perm; eauto|].
           eapply Ans; [| | | |exact An]; auto. intros e0 He0. apply A2, He0.
        -- intros x2 pos2 e2 ev2 Hx2 P2 N3 N4 N5. exfalso. apply N5. eapply scanned_flags; [exact Sc|]. cbn [set_idx ls_idx] in P2. rewrite P2. eapply nth_error_In; eauto.
      * intros x w2 Q3 [(X & _)|(_ & [X|X])]; [contradiction| |].
        -- cbn in X. rewrite Ha in X. destruct X.
        -- unfold error_free in E1. rewrite Forall_forall in E1. elim (E1 _ X).
      * intros w2 Q3 _ X. apply estimate_zero in X; [lia|exact Hp|]. change (2 ^ 60) with 1152921504606846976 in Hlim. change (2 ^ 64) with 18446744073709551616. lia.
Qed.
End Mend.

(** What a request costs *)
Lemma local_used E ls id out w r w' : env_ok E -> error_free (w_io w) -> store_local_get_chunk E ls id out w = (Ok r, w') ->
  used (3 * blen out + 2 + blen (w_files w (ls_ino ls))) w w'.
Proof.
  intros HE He H. set (Z := fun i => blen (w_files w i)).
  assert (He' : error_free (w_io w')).
  { pose proof (frame_local_get none store_ev E (fun _ => Logic.I) ls id out w) as Fr. rewrite H in Fr. destruct Fr as (_ & F2 & _). eapply error_free_suffix; eauto. }
  split.
  - pose proof (cost_local E Z true HE ls id out w) as C. rewrite H in C. destruct C as (_ & _ & C & _); [split; [intros i; unfold Z; lia|discriminate]|].
    rewrite !settled_transfers in C by assumption. unfold local_cost, Z, blen in *. lia.
  - intros K. pose proof (cost_local E Z false HE ls id out w) as C. rewrite H in C. destruct C as (_ & (_ & C) & _); [split; [intros i; unfold Z; lia|auto]|]. now apply C.
Qed.
Lemma local_starved E ls id out w w' : env_ok E -> error_free (w_io w) -> store_local_get_chunk E ls id out w = (Halt, w') -> w_kcapi w = false ->
  (transfers (w_io w) < N.to_nat (3 * blen out + 2 + blen (w_files w (ls_ino ls))))%nat.
Proof.
  intros HE He H K. set (Z := fun i => blen (w_files w i)).
  pose proof (cost_local E Z false HE ls id out w) as C. rewrite H in C. specialize (C ltac:(split; [intros i; unfold Z; lia|auto])). destruct C as [(_ & C)|(C & _)]; [|discriminate].
  rewrite settled_transfers in C by assumption. unfold local_cost, Z, blen in *. lia.
Qed.

(** ** The stores that are relied on *)
Lemma disc_unique p D D' : disc_of p D -> disc_of p D' -> D = D'.
Proof. intros (A & _) (B & _). congruence. Qed.
Lemma list_max_at l x : In x l -> (x <= list_max l)%nat.
Proof. induction l as [|y l IH]; [intros []|]. change (list_max (y :: l)) with (Nat.max y (list_max l)). intros [->|H]; [lia|specialize (IH H); lia]. Qed.

Section Supply.
Variables (E : env) (argv : list bytes) (w : world) (rest : list bytes) (iino : nat) (p : params) (n : N).
Hypothesis (HS : sane E argv w) (Hio : error_free (w_io w)) (Hal : w_alloc w = []).
Hypothesis (Hlen : forall P, In P rest -> 0 < blen P <= BUF_SIZE).
Hypothesis (Hopen : e_open E (cmd_index argv) = Some iino) (HV : valid_index (w_files w iino) p n).
Let tp := cmd_target argv.
Let per := request_cost E argv w.
Definition weak (arg : bytes) : Prop := exists path ip ino jino m, mendable E w tp p arg path ip ino jino m.
Definition rely2 (j : nat) : Prop := rely E argv w rest p j \/ exists arg, nth_error (cmd_stores argv) j = Some arg /\ weak arg.
Definition sups2 (j : nat) (P : bytes) : Prop := exists arg, nth_error (cmd_stores argv) j = Some arg /\ offers E w tp p rest arg P.
(** What is relied on of a damaged store, and the index that is right. *)
Definition kept_ids (arg id : bytes) : Prop := salvaged E w tp p arg id \/ seeded E w tp p arg id.
Definition mfits (tino j : nat) (s : store) : Prop := exists arg ls, nth_error (cmd_stores argv) j = Some arg /\ weak arg /\ s = SLocal ls /\
  e_open E (match classify_arg tp arg with ArgLocal path _ => path | _ => [] end) = Some (ls_ino ls) /\ ls_ino ls <> tino /\
  mended E (ls_ino ls) (w_files w (ls_ino ls)) p (exists id, seeded E w tp p arg id) (kept_ids arg) ls.
Definition strong (j : nat) : Prop := forall arg path ip, nth_error (cmd_stores argv) j = Some arg -> classify_arg tp arg = ArgLocal path ip -> exists id, seeded E w tp p arg id.
Definition fits2 (tino j : nat) (s : store) : Prop := (fits E argv w rest p tino j s /\ strong j) \/ mfits tino j s.

Lemma per_ge : BUF_SIZE <= per.
Proof. unfold per, request_cost. lia. Qed.
Lemma per_local arg path ip ino : In arg (cmd_stores argv) -> classify_arg tp arg = ArgLocal path ip -> e_open E path = Some ino -> 3 * BUF_SIZE + 2 + blen (w_files w ino) <= per.
Proof.
  intros Hin Hc Ho. unfold per, request_cost. assert (H : (file_size E w tp arg <= list_max (map (file_size E w tp) (cmd_stores argv)))%nat) by (apply list_max_at, in_map, Hin).
  unfold file_size at 1 in H. rewrite Hc in H. unfold size_at in H. rewrite Ho in H. unfold tp, blen in *. lia.
Qed.
Lemma avg_pos : 0 < p_avg p.
Proof. destruct HV as (_ & _ & _ & _ & _ & _ & _ & V1 & V2 & _). lia. Qed.
Lemma salvaged_seeded arg id id0 : salvaged E w tp p arg id -> seeded E w tp p arg id0 -> seeded E w tp p arg id.
Proof.
  intros (path & ip & ino & jino & m & D & i & c & M & _ & Hi & <- & _) Hs. destruct M as [M1 M2 M3 M4 M5 (q & M6 & M7 & M8 & M9) M10 M11 M12 M13 M14 M15].
  inversion Hs as [path' ino' D' c' Y1|path' ip' ino' jino' q' m' i' Y1 Y2 Y3 Y4 Y5 Y6 Y7 Y8 Y9 Y10 Y11]; [congruence|]. rewrite M1 in Y1. injection Y1 as <- <-.
  assert (ino' = ino) as -> by congruence. assert (jino' = jino) as -> by congruence. destruct (valid_index_unique _ _ _ _ _ M6 Y5) as (<- & <-). eapply seed_index; eauto.
Qed.
Lemma kept_scan arg path ip ino jino m D id : mendable E w tp p arg path ip ino jino m -> disc_of p D -> kept_ids arg id -> ~ (exists id, seeded E w tp p arg id) ->
  exists c, In c (chunks p D (w_files w ino)) /\ e_H E c = id.
Proof.
  intros M HD [(path' & ip' & ino' & jino' & m' & D' & i & c & M' & HD' & _ & _ & H1 & H2)|H] Hn; [|elim Hn; eauto].
  pose proof (md_arg _ _ _ _ _ _ _ _ _ _ M) as A. pose proof (md_arg _ _ _ _ _ _ _ _ _ _ M') as A'. rewrite A in A'. injection A' as <- <-.
  pose proof (md_open _ _ _ _ _ _ _ _ _ _ M) as O1. pose proof (md_open _ _ _ _ _ _ _ _ _ _ M') as O2. assert (ino' = ino) as -> by congruence. rewrite (disc_unique _ _ _ HD HD'). eauto.
Qed.

Lemma fits2_get (sim : Prop) w1 tino : (forall i, w_files w1 i = w_files w i) -> forall j s t P out x, fits2 tino j s -> In P rest -> t_ino t = tino -> fair w1 tino x -> blen out = BUF_SIZE -> store_ok E true x t s ->
  wp (store_get_chunk E s t (e_H E P) out) (fun r x' => let '(r, _, s', _) := r in fits2 tino j s' /\ (exists m, r = Some m /\ (sups2 j P -> 0 < m)) /\ spent sim per x x') (fun _ _ => broke sim per x) x.
Proof.
  intros Hw1 j s t P out x Hs HP Ht Hfair Hl Hok. destruct Hs as [(Hs & Hst)|(arg & ls & Ha & Hwk & -> & Ho & Hne & Hm)].
  - eapply wp_mono; [apply (fits_get E argv w rest p HS Hlen sim w1 tino Hw1 j s t P out x Hs HP Ht Hfair Hl Hok)|..].
    + intros [[[r out'] s'] t'] x' (A & (m & B1 & B2) & C). split; [left; auto|]. split; [|intros S0; eapply used_more; [apply per_ge|apply C, S0]].
      exists m. split; [exact B1|]. intros (arg & Ha & [Hof|Hof]); [apply B2; exists arg; auto|]. apply B2. exists arg. split; [exact Ha|]. apply sup_local.
      pose proof Hof as (path & ip & ino & jino & q & D & i & c & M & _). destruct (Hst arg path (Some ip) Ha (md_arg _ _ _ _ _ _ _ _ _ _ M)) as (id0 & Hs0). eapply salvaged_seeded; eauto.
    + intros bd x' Bk S0 K. specialize (Bk S0 K). pose proof per_ge. lia.
  - destruct Hwk as (path & ip & ino & jino & q & M). pose proof M as [M1 M2 M3 M4 M5 M6 M7 M8 M9 M10 M11 M12]. rewrite M1, M2 in Ho. injection Ho as Ho. rewrite <- Ho in *.
    pose proof Hfair as (F1 & F2 & F3 & F4). pose proof HS as [HE Hsv _ Hf _ _ _ _ Hdd].
    assert (exists D, disc_of p D) as (D & HD). { apply (Hdd iino p n arg path Hopen HV (nth_error_In _ _ Ha)). exists (Some ip). exact M1. }
    assert (Fs : w_files x ino = w_files w ino) by (rewrite F1 by exact Hne; apply Hw1).
    pose proof (wp_get_mended E ino (w_files w ino) p D (exists id, seeded E w tp p arg id) (kept_ids arg) HE HD M12 ltac:(apply Hf) M3 avg_pos M10 M11
      (fun id H1 H2 => kept_scan arg path ip ino jino q D id M HD H1 H2) ls (e_H E P) out x Fs Hm Hl F2 F3 F4) as G.
    pose proof (local_used E ls (e_H E P) out x) as U. pose proof (local_starved E ls (e_H E P) out x) as V. pose proof (per_local arg path (Some ip) ino (nth_error_In _ _ Ha) M1 M2) as Hper.
    rewrite <- Ho, Fs, Hl in U, V. unfold store_get_chunk. apply wp_bind. unfold wp in G |- *. destruct (store_local_get_chunk E ls (e_H E P) out x) as [[[[r out'] ls']| | |] x'].
    + destruct G as (G1 & m & G2 & G3). split; [|split].
      * right. exists arg, ls'. pose proof G1 as (I1 & _). rewrite M1, I1. split; [exact Ha|]. split; [exists path, ip, ino, jino, q; exact M|]. auto.
      * exists m. split; [exact G2|]. intros (arg' & Ha' & Hof). assert (arg' = arg) as -> by congruence. apply G3. destruct Hof as [[Hof|Hc _]|Hof]; [now right|unfold tp in *; congruence|now left].
      * intros _. eapply used_more; [exact Hper|]. eapply U; eauto.
    + discriminate.
    + discriminate.
    + intros _ K. specialize (V x' HE F2 eq_refl K). lia.
Qed.

Lemma weak_found wk su w1 l j arg : started w wk -> ready E true argv w wk su w1 -> su_store su = Some l -> nth_error (cmd_stores argv) j = Some arg -> weak arg ->
  exists s, nth_error l j = Some (mkSub s true) /\ mfits (t_ino (su_target su)) j s.
Proof.
  intros Hst HR Hl Hj Hwk. pose proof Hwk as (path & ip & ino & jino & q & M). pose proof M as [M1 M2 M3 M4 M5 (p' & M6 & M7 & M8 & M9) M10 M11 M12 M13 M14 M15].
  assert (I2 : su_params su = p).
  { assert (I1 : su_index su = iino) by (pose proof (rd_index _ _ _ _ _ _ _ HR); congruence). pose proof (rd_valid _ _ _ _ _ _ _ HR) as V. rewrite I1 in V. now destruct (valid_index_unique _ _ _ _ _ HV V). }
  pose proof (rd_store _ _ _ _ _ _ _ HR) as (l' & L1 & L2 & L3). assert (l' = l) by congruence. subst l'.
  destruct (Forall2_at _ _ _ L3 j arg Hj) as (ss & N1 & Act & Md). rewrite Forall_forall in L2. pose proof (L2 ss (nth_error_In _ _ N1) Act) as OK.
  assert (M1' : classify_arg (cmd_target argv) arg = ArgLocal path (Some ip)) by exact M1.
  assert (Lc : exists ls, ss = mkSub (SLocal ls) true). { rewrite M1' in Md. destruct ss as [st a]. cbn [ss_store ss_active] in *. subst a. destruct st; try contradiction. eauto. }
  destruct Lc as (ls & ->). rewrite M1' in Md. cbn [ss_store] in Md. destruct Md as (O1 & P1 & _ & wa & wb & F1 & F2 & F3 & Hnew). rewrite I2 in Hnew, P1.
  cbn in OK. destruct OK as (K1 & _ & _ & _ & _ & _). exists (SLocal ls). split; [exact N1|]. exists arg, ls. rewrite M1. split; [exact Hj|]. split; [exact Hwk|]. split; [reflexivity|]. split; [exact O1|]. split; [exact K1|].
  assert (Fa : files_ok wa) by (intros k; rewrite F1; apply HS). assert (Ea : error_free (w_io wa)) by (eapply error_free_suffix; eauto).
  assert (Aa : ~ In false (w_alloc wa)) by (intros X; apply F3 in X; rewrite Hal in X; destruct X).
  assert (ino = ls_ino ls) by congruence. subst ino. rewrite <- (F1 jino) in M6, M10, M12. rewrite <- (F1 (ls_ino ls)) in M12.
  destruct (local_new_made E path ip p wa ls wb jino p' q Fa Ea Aa Hnew M4 M5 M6 M7 M8 M9 M10) as (Hx & X). split; [reflexivity|]. split; [exact P1|]. split; [exact Hx|]. rewrite X, (F1 jino) in *. rewrite <- (F1 (ls_ino ls)). set (h := w_files w jino) in *. split.
  - intros e He. apply in_map_iff in He as (i & <- & Hi). apply in_seq in Hi. cbn [en_start en_len en_id]. pose proof (M10 i ltac:(lia)) as U. pose proof (M12 i ltac:(lia)) as W. split; [unfold ent_size in *; lia|].
    unfold fine. cbn [en_start en_len en_id]. intros [V|(id & Hs)]; [unfold validated in V; cbn in V; congruence|].
    inversion Hs as [path0 ino0 D0 c0 Y1|path0 ip0 ino0 jino0 p0 n0 i0 Y1 Y2 Y3 Y4 Y5 Y6 Y7 Y8 Y9 Y10 Y11]; [congruence|]. rewrite M1 in Y1. injection Y1 as <- <-.
    assert (ino0 = ls_ino ls) as -> by congruence. assert (jino0 = jino) as -> by congruence. destruct (valid_index_unique _ _ _ _ _ M6 Y5) as (_ & <-).
    rewrite (F1 (ls_ino ls)). destruct (Y10 i ltac:(lia)) as (_ & _ & B). exact B.
  - intros id Hid. assert (exists i, (i < N.to_nat q)%nat /\ ent_id h i = id) as (i & Hi & <-).
    { destruct Hid as [(path0 & ip0 & ino0 & jino0 & m0 & D0 & i & c & M' & _ & Hi & He & _)|Hs].
      - destruct M' as [Z1 Z2 Z3 Z4 Z5 (p0 & Z6 & _) Z10 Z11 Z12 Z13 Z14 Z15]. rewrite M1 in Z1. injection Z1 as <- <-. assert (jino0 = jino) as -> by congruence. destruct (valid_index_unique _ _ _ _ _ M6 Z6) as (_ & <-). exists i. auto.
      - inversion Hs as [path0 ino0 D0 c0 Y1|path0 ip0 ino0 jino0 p0 n0 i0 Y1 Y2 Y3 Y4 Y5 Y6 Y7 Y8 Y9 Y10 Y11]; [congruence|]. rewrite M1 in Y1. injection Y1 as <- <-.
        assert (jino0 = jino) as -> by congruence. destruct (valid_index_unique _ _ _ _ _ M6 Y5) as (_ & <-). exists i0. auto. }
    exists (mkEntry (ent_start h i) (ent_size h i) 0 (ent_id h i)). split; [|reflexivity]. apply in_map_iff. exists i. split; [reflexivity|]. apply in_seq. lia.
Qed.

Lemma offer_stands (sim : Prop) su w1 : (forall P, In P rest -> exists arg, In arg (cmd_stores argv) /\ offers E w tp p rest arg P) ->
  (sim -> forall a path ip, In a (cmd_stores argv) -> classify_arg tp a = ArgLocal path ip -> ip = None \/ (exists id, seeded E w tp p a id) \/ weak a) ->
  stands E argv w rest sim per su w1.
Proof.
  intros Hall Hloc wk l Hst HR Hsu Hfair. set (tino := t_ino (su_target su)).
  assert (Hfound : found rely2 (fits2 tino) 0 l).
  { intros j Hj _. rewrite Nat.sub_0_r. destruct Hj as [Hj|(arg & Hj & Hwk)].
    - destruct (fits_found E argv w rest iino p n HS Hio Hal Hopen HV wk su w1 l Hst HR Hsu j Hj (Nat.le_0_l j)) as (s & X & Y). rewrite Nat.sub_0_r in X. exists s. split; [exact X|]. left. split; [exact Y|].
      intros arg path ip Ha Hc. destruct Hj as (arg' & Ha' & Hj). assert (arg' = arg) as -> by congruence. destruct Hj as [Hj|(P & _ & [Hj|Hj _])]; [exact Hj|eauto|unfold tp in *; congruence].
    - destruct (weak_found wk su w1 l j arg Hst HR Hsu Hj Hwk) as (s & X & Y). exists s. split; [exact X|]. now right. }
  exists rely2, (fits2 tino), sups2. split; [|split; [|split; [|split]]].
  - intros j s t P out x _. apply fits2_get. intros i. apply (ready_files _ _ _ _ _ _ _ Hst HR).
  - intros j s [((arg & _ & Hs) & _)|(arg & ls & _ & _ & -> & _ & _ & _ & _ & Hm)]; [|apply Hm]. destruct s as [ls|hs|]; auto. destruct Hs as (_ & sino & _ & Hst2). apply Hst2.
  - intros P HP. destruct (Hall P HP) as (arg & Hin & Hs). apply In_nth_error in Hin as (j & Hj). exists j. split; [|exists arg; auto]. destruct Hs as [Hs|(path & ip & ino & jino & q & D & i & c & M & _)].
    + left. exists arg. split; [exact Hj|]. right. eauto.
    + right. exists arg. split; [exact Hj|]. exists path, ip, ino, jino, q. exact M.
  - exact Hfound.
  - intros k ss arg S0 Hk Ha Hnl. pose proof HR as [_ _ _ _ _ _ _ (l' & R8 & _ & R10)]. assert (l' = l) as -> by congruence.
    destruct (Forall2_at_r _ _ _ R10 k ss Hk) as (a & Ha' & M). assert (a = arg) by congruence. subst a.
    destruct M as (Act & M). destruct (ss_store ss) as [ls|hs1|] eqn:Es; [|left; exact Logic.I..]. destruct (classify_arg (cmd_target argv) arg) as [|u|path ip] eqn:Ec; try contradiction.
    destruct (Hloc S0 arg path ip (nth_error_In _ _ Ha) Ec) as [->|Hsd]; [elim (Hnl path eq_refl)|]. right.
    assert (Rk : rely2 k). { destruct Hsd as [Hsd|Hsd]; [left; exists arg; split; [exact Ha|]; now left|right; eauto]. } split; [exact Rk|].
    destruct (Hfound k Rk (Nat.le_0_l k)) as (s & X & Y). rewrite Nat.sub_0_r in X. rewrite X in Hk. injection Hk as <-. cbn in Es. congruence.
Qed.
End Supply.
