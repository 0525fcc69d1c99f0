(** The target: reading, checking, writing, and serving chunks. *)
From Coq Require Import Sorting.Permutation.
From Verif Require Import Base Lib Utils Sha Index Target SpecBasic SpecEnv SpecStore PfUtils PfBasic PfIO PfRead PfIndex PfFrame PfLocal.
Local Open Scope N_scope.

(** Hashing, with the reason for not getting further. *)
Lemma wp_chunk_id_why E b d (Q : bytes -> world -> Prop) (R : bad -> world -> Prop) w : hash_mode b w ->
  (forall k kv r, quiet0 w (set_kcapi k kv w) -> hashes E b d r -> (kc_clean w -> r = e_H E d) -> (w_kcapi w = false -> k = false) -> Q r (set_kcapi k kv w)) ->
  (forall kv, quiet0 w (set_kcapi true kv w) -> w_kcapi w = true -> R BHalt (set_kcapi true kv w)) ->
  wp (chunk_calculate_id E d) Q R w.
Proof.
  intros Hm H1 H2. apply wp_sha_once.
  - intros k kv r Hs Hk _ He Hc. apply H1; [apply quiet_kcapi; [exact Hs|intros K; apply Hk, K]| |exact Hc|intros K; apply Hk, K].
    destruct b; [|destruct He as (s & He & ->); exists s; auto]. cbn. symmetry. apply Hc, Hm. reflexivity.
  - intros kv Hs K. apply H2; [|exact K]. apply quiet_kcapi; [exact Hs|congruence].
Qed.

(** What target_add_chunk does to the index of the target. *)
Definition entries (t : target) : list entry := ix_entries (t_idx t).
Definition added (off len : N) (id : bytes) (fails : Prop) (t t' : target) : Prop :=
  t_ino t' = t_ino t /\ t_queryable t' = t_queryable t /\
  (if t_queryable t
   then idx_ok (t_idx t') /\ incl (entries t) (entries t') /\
        (forall e, In e (entries t') -> In e (entries t) \/ e = mkEntry off len 0 id /\ 0 < len) /\
        (fails \/ exists e, In e (entries t') /\ en_id e = id) /\
        n_entries (t_idx t') <= n_entries (t_idx t) + 1
   else t' = t).
Definition queryable_ok (t : target) : Prop :=
  t_queryable t = true -> idx_ok (t_idx t) /\ 60 * (n_entries (t_idx t) + 1) < 2 ^ 64.

Lemma wp_add_chunk E t len off id (Q : target -> world -> Prop) (R : bad -> world -> Prop) w :
  qsort_ok E -> bsearch_ok E -> queryable_ok t ->
  (forall t' al, incl al (w_alloc w) -> added off len id (In false (w_alloc w)) t t' -> Q t' (set_alloc al w)) ->
  (len = 0 -> t_queryable t = true -> R BAbort w) ->
  wp (target_add_chunk E t len off id) Q R w.
Proof.
  intros Hq Hb Hok HQ HR. unfold target_add_chunk. destruct (t_queryable t) eqn:Et; cbn [negb].
  2:{ apply wp_ret. rewrite <- (set_alloc_id w). apply HQ; [apply incl_refl|]. split; [reflexivity|]. split; [reflexivity|]. now rewrite Et. }
  destruct (Hok Et) as (Hx & Hn). apply wp_bind, wp_index_query; auto.
  - intros pos x' e Hx' P N1 N2. apply wp_ret. rewrite <- (set_alloc_id w). apply HQ; [apply incl_refl|].
    split; [reflexivity|]. split; [reflexivity|]. rewrite Et. unfold entries. cbn [t_idx t_set_idx]. split; [exact Hx'|].
    split; [intros y; apply Permutation_in; exact P|]. split; [intros y Hy; left; eapply Permutation_in; [symmetry; exact P|exact Hy]|].
    split; [right; exists e; split; [eapply nth_error_In; eauto|exact N2]|]. rewrite (n_entries_perm _ _ P). lia.
  - intros x' Hx' P Hno. apply wp_bind, wp_index_insert; [exact Hx'| | | |].
    + now rewrite (n_entries_perm _ _ P).
    + intros L. now apply HR.
    + intros al space Ha Hl Hx2. apply wp_ret, HQ; [exact Ha|]. split; [reflexivity|]. split; [reflexivity|]. rewrite Et.
      unfold entries. cbn [t_idx t_set_idx ix_entries]. split; [exact Hx2|].
      split; [intros y Hy; apply in_or_app; left; eapply Permutation_in; eauto|].
      split. { intros y Hy. apply in_app_or in Hy as [Hy|[<-|[]]]; [left; eapply Permutation_in; [symmetry; exact P|exact Hy]|right; split; [reflexivity|lia]]. }
      split; [right; exists (mkEntry off len 0 id); split; [apply in_or_app; right; now left|reflexivity]|].
      unfold n_entries in *. cbn [ix_entries]. rewrite app_length, (Permutation_length P). cbn. lia.
    + intros al Ha Hf Hl. apply wp_ret, HQ; [exact Ha|]. split; [reflexivity|]. split; [reflexivity|]. rewrite Et. unfold entries. cbn [t_idx t_set_idx].
      split; [exact Hx'|]. split; [intros y; apply Permutation_in; exact P|].
      split; [intros y Hy; left; eapply Permutation_in; [symmetry; exact P|exact Hy]|]. split; [left; exact Hf|]. rewrite (n_entries_perm _ _ P). lia.
Qed.

Lemma quiet0_io w ev : suffix ev (w_io w) -> quiet0 w (set_io ev w). Proof. apply quiet_io. Qed.
Lemma quiet0_alloc w al : incl al (w_alloc w) -> quiet0 w (set_alloc al w). Proof. apply quiet_alloc. Qed.

(** target_check_chunk; [cost]: reads used. *)
Definition used (k : N) (w w' : world) : Prop := (transfers (w_io w) <= transfers (w_io w') + N.to_nat k)%nat /\ (w_kcapi w = false -> w_kcapi w' = false).

Lemma read_loop_uses ev : forall avail len got r got' ev',
  read_loop avail len ev got = (r, got', ev') -> (transfers ev <= transfers ev' + N.to_nat len)%nat.
Proof.
  induction ev as [|e ev IH]; intros avail len got r got' ev' H; cbn in H.
  - destruct (len =? 0)%N; injection H as <- <- <-; cbn; lia.
  - destruct (len =? 0)%N eqn:E0. { injection H as <- <- <-. cbn. lia. }
    destruct e as [k| | |].
    + set (n := N.min (N.pos (Pos.of_succ_nat k)) (N.min len (blen avail))) in *.
      destruct (n =? 0)%N eqn:En. { injection H as <- <- <-. cbn [transfers]. lia. }
      apply IH in H. cbn [transfers]. assert (n <= len) by (unfold n; lia). lia.
    + apply IH in H; auto.
    + injection H as <- <- <-. cbn [transfers]. lia.
    + injection H as <- <- <-. cbn [transfers]. lia.
Qed.
Lemma preadall_uses ino len off w : (transfers (w_io w) <= transfers (w_io (snd (preadall ino len off w))) + N.to_nat len)%nat.
Proof.
  unfold preadall. destruct (len =? 0) eqn:E0; [cbn; lia|]. destruct (OFF_LIMIT <=? off).
  - destruct (w_io w) as [|e ev] eqn:Ew; cbn [snd set_io w_io]; [rewrite Ew; cbn; lia|]. destruct e; cbn [transfers]; lia.
  - destruct (read_loop _ len (w_io w) []) as [[r got] ev'] eqn:ER. apply read_loop_uses in ER. destruct r; exact ER.
Qed.
(** [wp_pread] with the cost in every case *)
Lemma wp_pread_cost ino len off (Q : bool * bytes -> world -> Prop) (R : bad -> world -> Prop) w :
  let f := w_files w ino in
  (forall ev', suffix ev' (w_io w) -> (off + len <= blen f)%N \/ len = 0%N ->
     ((0 < len)%N -> (off < OFF_LIMIT)%N) -> blen (slice_N off len f) = len ->
     (transfers (w_io w) <= transfers ev' + N.to_nat len)%nat ->
     Q (true, slice_N off len f) (set_io ev' w)) ->
  (forall ev' n, suffix ev' (w_io w) -> (N.of_nat n < len)%N -> length (slice_N off (N.of_nat n) f) = n ->
     ~ error_free (w_io w) \/ (blen f < off + len)%N \/ (OFF_LIMIT <= off)%N ->
     (transfers (w_io w) <= transfers ev' + N.to_nat len)%nat ->
     Q (false, slice_N off (N.of_nat n) f) (set_io ev' w)) ->
  ((transfers (w_io w) < N.to_nat len)%nat -> R BHalt (set_io [] w)) ->
  wp (preadall ino len off) Q R w.
Proof.
  intros f H1 H2 H3. pose proof (preadall_uses ino len off w) as U.
  assert (G : wp (preadall ino len off) (fun r w' => (transfers (w_io w) <= transfers (w_io w') + N.to_nat len)%nat -> Q r w') R w).
  { apply wp_pread; fold f; auto. }
  unfold wp in *. destruct (preadall ino len off w) as [[r| | |] w']; auto.
Qed.

Lemma wp_check_chunk E b t tmp len off id (Q : option bool * bytes * target -> world -> Prop) (R : bad -> world -> Prop) w :
  let g := w_files w (t_ino t) in
  qsort_ok E -> bsearch_ok E -> queryable_ok t -> hash_mode b w -> len <= blen tmp ->
  (forall tmp' t' w', quiet0 w w' -> used len w w' -> length tmp' = length tmp ->
     off + len <= blen g \/ len = 0 -> hashes E b (slice_N off len g) id -> (0 < len -> off < OFF_LIMIT) ->
     added off len id (In false (w_alloc w)) t t' -> Q (Some true, tmp', t') w') ->
  (forall r tmp' w', quiet0 w w' -> r <> Some true -> length tmp' = length tmp ->
     used len w w' ->
     (kc_clean w -> error_free (w_io w) -> off + len <= blen g -> off < OFF_LIMIT -> e_H E (slice_N off len g) <> id) -> Q (r, tmp', t) w') ->
  (forall bd w', quiet0 w w' -> (bd = BHalt /\ ((transfers (w_io w) < N.to_nat len)%nat \/ w_kcapi w = true)) \/ (bd = BAbort /\ len = 0 /\ t_queryable t = true) -> R bd w') ->
  wp (target_check_chunk E t tmp len off id) Q R w.
Proof.
  intros g Hq Hb Hok Hm Hl H1 H2 H3. unfold target_check_chunk. apply wp_bind, wp_pread_cost; fold g.
  - intros ev Hs Hr Ho Hd Ht. cbn [negb]. apply wp_bind.
    assert (L : length (overlay (slice_N off len g) tmp) = length tmp) by (apply length_overlay; unfold blen in *; lia).
    rewrite firstn_overlay by (unfold blen in Hd; lia).
    assert (Q1 := quiet0_io w ev Hs). set (w1 := set_io ev w) in *.
    apply wp_chunk_id_why with (b := b); [exact (quiet0_mode _ _ _ Q1 Hm)| |].
    + intros k kv r Q2 Hh Hc Hk. assert (Q3 := quiet0_trans _ _ _ Q1 Q2). set (w2 := set_kcapi k kv w1) in *.
      assert (U : used len w w2) by (split; [exact Ht|exact Hk]).
      destruct (beq r id) eqn:Eb; cbn [negb].
      * apply beq_eq in Eb. subst r. apply wp_bind, wp_add_chunk; [exact Hq|exact Hb|exact Hok| |].
        -- intros t' al Ha Had. apply wp_ret. apply H1; auto. eapply quiet0_trans; [exact Q3|]. now apply quiet0_alloc.
        -- intros L0 Et. apply H3; [exact Q3|]. right. auto.
      * apply wp_ret. apply H2; auto; [discriminate|]. intros C EF _ _ Heq. apply beq_neq in Eb. apply Eb. rewrite Hc; [exact Heq|].
        destruct Q1 as (_ & _ & _ & Q1 & _). auto.
    + intros kv Q2 K. apply H3; [eapply quiet0_trans; eauto|]. left. split; [reflexivity|]. right. exact K.
  - intros ev n Hs Hn Hln Hr Ht. cbn [negb]. apply wp_ret. apply H2; [apply quiet0_io, Hs|discriminate| | |].
    + apply length_overlay. unfold blen in *. lia.
    + split; [exact Ht|auto].
    + intros C EF Hlen Ho. destruct Hr as [Hr|[Hr|Hr]]; [contradiction|lia|lia].
  - intros Ht. apply H3; [apply quiet0_io; exists (w_io w); now rewrite app_nil_r|]. left. split; [reflexivity|]. left. exact Ht.
Qed.

(** What the target may be trusted to hold: every entry of its index lies within the first [bound] bytes. *)
Definition tgt_ok (E : env) (b : bool) (g : bytes) (bound : N) (t : target) : Prop :=
  t_queryable t = true -> idx_ok (t_idx t) /\
  forall e, In e (entries t) -> 0 < en_len e /\ en_start e + en_len e <= bound /\ hashes E b (slice_N (en_start e) (en_len e) g) (en_id e).
Definition same_target (t t' : target) : Prop :=
  t_ino t' = t_ino t /\ t_queryable t' = t_queryable t /\ Permutation (entries t) (entries t').
Lemma same_target_refl t : same_target t t. Proof. repeat split; reflexivity. Qed.
Lemma same_target_trans t1 t2 t3 : same_target t1 t2 -> same_target t2 t3 -> same_target t1 t3.
Proof. intros (A & B & C) (A' & B' & C'). split; [congruence|]. split; [congruence|]. etransitivity; eauto. Qed.

Lemma wp_target_get E b bound t id out (Q : option N * bytes * target -> world -> Prop) (R : bad -> world -> Prop) w :
  let g := w_files w (t_ino t) in
  qsort_ok E -> bsearch_ok E -> tgt_ok E b g bound t -> bound <= blen g ->
  (forall r out' t' w', quiet0 w w' -> used (blen out) w w' -> authentic E b (id, out) (r, out') -> same_target t t' -> (t_queryable t = true -> idx_ok (t_idx t')) ->
     (forall n, r = Some n -> (n = 0 -> out' = out /\ (t_queryable t = true -> forall e, In e (entries t) -> en_id e <> id)) /\
        (0 < n -> t_queryable t = true)) ->
     (r = None -> (exists e, In e (entries t) /\ blen out < en_len e) \/ ~ error_free (w_io w) \/ OFF_LIMIT < blen g) -> Q (r, out', t') w') ->
  (forall w', quiet0 w w' -> (transfers (w_io w) < length out)%nat -> R BHalt w') ->
  wp (target_get_chunk E t id out) Q R w.
Proof.
  intros g Hq Hb Hok Hbd H1 H2. unfold target_get_chunk. destruct (t_queryable t) eqn:Et; cbn [negb].
  2:{ apply wp_ret. apply H1; [apply quiet0_refl|split; auto; lia|split; [reflexivity|cbn; lia]|apply same_target_refl|discriminate| |discriminate].
      intros n Hn. injection Hn as <-. split; [intros _; split; [reflexivity|discriminate]|lia]. }
  destruct (Hok Et) as (Hx & Hg). apply wp_bind, wp_index_query; auto.
  - intros pos x' e Hx' P N1 N2. apply wp_bind. eapply wp_index_get; [exact N1|].
    assert (ST : same_target t (t_set_idx t x')) by (split; [reflexivity|]; split; [reflexivity|exact P]).
    assert (He : In e (entries t)) by (eapply Permutation_in; [symmetry; exact P|eapply nth_error_In; eauto]).
    destruct (Hg _ He) as (G1 & G2 & G3).
    destruct (blen out <? en_len e) eqn:El.
    { apply wp_ret. apply H1; [apply quiet0_refl|split; auto; lia|split; [reflexivity|exact I]|exact ST|intros _; exact Hx'|discriminate|].
      intros _. left. exists e. split; [exact He|lia]. }
    apply wp_bind, wp_pread_cost; cbn [t_ino t_set_idx]; fold g.
    + intros ev Hs Hr Ho Hd Ht. cbn [negb]. apply wp_ret. apply H1.
      * apply quiet0_io, Hs.
      * split; [cbn [set_io w_io]; unfold blen in *; lia|auto].
      * split; cbn [fst snd]; [apply length_overlay; unfold blen in *; lia|]. intros _. split; [lia|].
        rewrite firstn_overlay by (unfold blen in *; lia). rewrite <- N2. exact G3.
      * exact ST.
      * intros _; exact Hx'.
      * intros n Hn. injection Hn as <-. split; [lia|auto].
      * discriminate.
    + intros ev n Hs Hn Hln Hr Ht. cbn [negb]. apply wp_ret. apply H1.
      * apply quiet0_io, Hs.
      * split; [cbn [set_io w_io]; unfold blen in *; lia|auto].
      * split; cbn [fst snd]; [apply length_overlay; unfold blen in *; lia|exact I].
      * exact ST.
      * intros _; exact Hx'.
      * discriminate.
      * intros _. right. destruct Hr as [Hr|[Hr|Hr]]; [left; exact Hr|lia|right; lia].
    + intros Ht. apply H2; [apply quiet0_io; exists (w_io w); now rewrite app_nil_r|unfold blen in *; lia].
  - intros x' Hx' P Hno. apply wp_ret. apply H1; [apply quiet0_refl|split; auto; lia|split; [reflexivity|cbn; lia]| |intros _; exact Hx'| |discriminate].
    + split; [reflexivity|]. split; [reflexivity|exact P].
    + intros n Hn. injection Hn as <-. split; [intros _; split; [reflexivity|intros _; exact Hno]|lia].
Qed.

(** target_write *)
Definition in_range (off len : N) (o : N) (d : bytes) : Prop := off <= o /\ o + blen d <= off + len.
Definition write_ev (ino : nat) (off : N) (data : bytes) (ev : tev) : Prop :=
  match ev with TWrite i o d => i = ino /\ wr_ok off data (o, d) | TPut i o d => i = ino /\ o = off /\ d = data | _ => False end.
Definition wrote (ino : nat) (off : N) (data : bytes) (n : nat) (w w' : world) : Prop :=
  (n <= length data)%nat /\ w_files w' ino = fw (w_files w ino) (N.to_nat off) (firstn n data) /\
  (n <> O -> off < OFF_LIMIT) /\ (exists tr, w_trace w' = tr ++ w_trace w /\ In (TPut ino off data) tr) /\ quiet (eq ino) (write_ev ino off data) w w'.

Lemma write_room_pos k f off want n : 0 < want -> write_room k f off want = Some n -> 0 < n.
Proof.
  unfold write_room. intros Hw. destruct (OFF_LIMIT <=? off); [discriminate|]. destruct k; intros H.
  - now injection H as <-.
  - destruct (blen f <=? off) eqn:Eb; [discriminate|]. injection H as <-. lia.
  - discriminate.
Qed.
Lemma pwrite_loop_uses k ev : forall f off data wr r f' wr' ev',
  pwrite_loop k f off data ev wr = (r, f', wr', ev') -> (transfers ev <= transfers ev' + length data)%nat.
Proof.
  induction ev as [|e ev IH]; intros f off data wr r f' wr' ev' H; destruct data as [|x data]; cbn [pwrite_loop] in H.
  1-3: injection H as <- <- <- <-; cbn; lia.
  destruct e as [m| | |].
  - destruct (write_room k f off _) as [n|] eqn:Er.
    + apply IH in H. rewrite skipn_length in H. cbn [transfers].
      apply write_room_pos in Er; [|unfold blen; cbn [length]; lia]. cbn [length] in *. lia.
    + injection H as <- <- <- <-. cbn [transfers length]. lia.
  - apply IH in H. exact H.
  - injection H as <- <- <- <-. cbn [transfers length]. lia.
  - injection H as <- <- <- <-. cbn [transfers length]. lia.
Qed.
(** Without errors a write to a file that can hold the data fails only by running out of schedule. *)
Definition can_hold (k : fkind) (f : bytes) (off len : N) : Prop :=
  off + len <= OFF_LIMIT /\ match k with KReg => True | KBlk => off + len <= blen f | KOther => False end.
Lemma pwrite_loop_error_free k ev : forall f off data wr r f' wr' ev',
  error_free ev -> can_hold k f off (blen data) -> data <> [] ->
  pwrite_loop k f off data ev wr = (r, f', wr', ev') -> r = IoDone \/ r = IoHalt /\ (transfers ev < length data)%nat.
Proof.
  induction ev as [|e ev IH]; intros f off data wr r f' wr' ev' EF CH Hne H; (destruct data as [|x data]; [contradiction|]); cbn [pwrite_loop] in H.
  - injection H as <- <- <- <-. right. split; [reflexivity|cbn; lia].
  - inversion EF as [|? ? EF1 EF2]; subst. destruct e as [m| | |]; try contradiction; [|eapply IH; eauto].
    set (D := x :: data) in *. set (want := N.min (N.of_nat (S m)) (blen D)) in *.
    assert (HD : 0 < blen D) by (unfold D, blen; cbn [length]; lia).
    assert (Hw : 0 < want <= blen D) by (unfold want; lia).
    assert (exists n, write_room k f off want = Some n /\ 0 < n <= blen D /\ can_hold k (file_write f (N.to_nat off) (firstn (N.to_nat n) D)) (off + n) (blen D - n)) as (n & Er & Hn & CH').
    { destruct CH as (C1 & C2). unfold write_room. replace (OFF_LIMIT <=? off) with false by lia. destruct k; [| |contradiction].
      - exists want. split; [reflexivity|]. split; [lia|]. split; [lia|exact I].
      - replace (blen f <=? off) with false by lia. exists (N.min want (blen f - off)). split; [reflexivity|]. split; [lia|]. split; [lia|].
        assert (LF : forall g o d, blen g <= blen (file_write g o d)) by (intros; unfold blen; rewrite length_file_write; lia).
        specialize (LF f (N.to_nat off) (firstn (N.to_nat (N.min want (blen f - off))) D)). lia. }
    rewrite Er in H. cbv zeta in H.
    assert (LS : length (skipn (N.to_nat n) D) = (length D - N.to_nat n)%nat) by apply skipn_length.
    destruct (skipn (N.to_nat n) D) as [|y D'] eqn:ED.
    + assert (r = IoDone) by (destruct ev as [|e' ev]; cbn in H; congruence). now left.
    + rewrite <- ED in *. apply IH in H; [|exact EF2| |rewrite ED; discriminate].
      * destruct H as [H|[H1 H2]]; [now left|]. right. split; [exact H1|]. cbn [transfers]. rewrite LS in H2. unfold blen in *. lia.
      * unfold blen at 1. rewrite ED. rewrite <- ED, LS. replace (N.of_nat (length D - N.to_nat n)) with (blen D - n) by (unfold blen; lia). exact CH'.
Qed.

Lemma wp_target_write E t data len off id (Q : bool * target -> world -> Prop) (R : bad -> world -> Prop) w :
  let D := firstn (N.to_nat len) data in
  qsort_ok E -> bsearch_ok E -> queryable_ok t -> len <= blen data ->
  (forall t' w', wrote (t_ino t) off D (length D) w w' -> used len w w' -> added off len id (In false (w_alloc w)) t t' -> Q (true, t') w') ->
  (forall n w', wrote (t_ino t) off D n w w' -> ~ (error_free (w_io w) /\ can_hold (e_kind E (t_ino t)) (w_files w (t_ino t)) off len) -> Q (false, t) w') ->
  (forall bd n w', wrote (t_ino t) off D n w w' -> bd <> BUB ->
     (error_free (w_io w) -> can_hold (e_kind E (t_ino t)) (w_files w (t_ino t)) off len -> 0 < len -> bd = BHalt /\ (transfers (w_io w) < N.to_nat len)%nat) -> R bd w') ->
  wp (target_write E t data len off id) Q R w.
Proof.
  intros D Hq Hb Hok Hl H1 H2 H3. unfold target_write. replace (blen data <? len) with false by lia. apply wp_bind, wp_trace, wp_bind.
  assert (LD : length D = N.to_nat len) by (unfold D; rewrite firstn_length; unfold blen in *; lia). fold D.
  unfold wp at 1. unfold pwriteall. set (ino := t_ino t) in *. cbn [add_trace w_files w_io w_alloc w_kcapi w_kev w_nperf w_trace].
  destruct (pwrite_loop (e_kind E ino) (w_files w ino) off D (w_io w) []) as [[[r f'] wr] ev'] eqn:EP.
  pose proof (pwrite_loop_uses _ _ _ _ _ _ _ _ _ _ EP) as HU. pose proof (pwrite_loop_error_free (e_kind E ino) (w_io w)) as HF.
  specialize (HF (w_files w ino) off D [] r f' wr ev').
  pose proof EP as EP'. apply pwrite_loop_spec in EP as (n & L & -> & Hd & Hs & (new & -> & Hnew) & Hk & Ho).
  rewrite app_nil_r. set (w1 := mkWorld _ _ _ _ _ _ _).
  assert (G : forall al, incl al (w_alloc w1) -> wrote ino off D n w (set_alloc al w1)).
  { intros al Ha. split; [exact L|]. split; [unfold w1; cbn; unfold upd_file; now rewrite Nat.eqb_refl|]. split; [exact Ho|].
    assert (Tr : w_trace (set_alloc al w1) = (map (fun p => TWrite ino (fst p) (snd p)) new ++ [TPut ino off D]) ++ w_trace w) by (unfold w1; cbn [w_trace set_alloc]; unfold trace_writes; now rewrite <- app_assoc).
    split; [exists (map (fun p => TWrite ino (fst p) (snd p)) new ++ [TPut ino off D]); split; [exact Tr|apply in_or_app; right; now left]|].
    split; [|split; [exact Hs|split; [exact Ha|split; [auto|]]]].
    - intros i Hni. unfold w1; cbn. unfold upd_file. destruct (Nat.eqb_spec i ino); [subst; now contradict Hni|reflexivity].
    - exists (map (fun p => TWrite ino (fst p) (snd p)) new ++ [TPut ino off D]). split; [exact Tr|].
      apply Forall_app. split; [|constructor; [cbn; auto|constructor]]. apply Forall_map. eapply Forall_impl; [|exact Hnew].
      intros [o d] Ho'. split; [reflexivity|exact Ho']. }
  assert (G0 : wrote ino off D n w w1) by (rewrite <- (set_alloc_id w1); apply G, incl_refl).
  assert (HF' : error_free (w_io w) -> can_hold (e_kind E ino) (w_files w ino) off len -> 0 < len -> r = IoDone \/ r = IoHalt /\ (transfers (w_io w) < N.to_nat len)%nat).
  { intros EF CH Hp. rewrite <- LD. apply HF; auto; [unfold blen; rewrite LD, N2Nat.id; exact CH|]. intros C. rewrite C in LD. cbn in LD. lia. }
  destruct r.
  - specialize (Hd eq_refl). subst n. apply wp_bind, wp_add_chunk; [exact Hq|exact Hb|exact Hok| |].
    + intros t' al Ha Had. apply wp_ret, H1; [apply G, Ha| |exact Had]. split; [cbn; lia|auto].
    + intros L0 Et. eapply H3; [exact G0|discriminate|]. lia.
  - apply wp_ret. eapply H2; [exact G0|]. intros [EF CH]. destruct (N.eq_0_gt_0_cases len) as [->|Hp].
    + destruct D; [|discriminate]. destruct (w_io w); discriminate EP'.
    + destruct (HF' EF CH Hp) as [HH|[HH _]]; discriminate.
  - eapply H3; [exact G0|discriminate|]. intros EF CH Hp. destruct (HF' EF CH Hp) as [HH|[HH _]]; discriminate.
  - eapply H3; [exact G0|discriminate|]. intros EF CH Hp. destruct (HF' EF CH Hp) as [HH|[_ HH]]; [discriminate|auto].
Qed.
