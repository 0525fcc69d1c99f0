(** The main program: processing the entries of an index (C01-C04, C07, C09, C11). *)
From Coq Require Import Sorting.Permutation.
From Verif Require Import Base Lib Utils Sha Chunker Caibx Index StoreLocal Target StoreHttp Chain Ui MainProg
  SpecBasic SpecEnv SpecChunker SpecStore SpecHttp SpecCaibx SpecMain
  PfUtils PfBasic PfIO PfRead PfIndex PfFrame PfLocal PfHttp PfCaibx PfTarget PfChain.
Local Open Scope N_scope.

(** ** Target contents *)
Lemma fw_eq g off d : (off <= length g)%nat -> fw g off d = firstn off g ++ d ++ skipn (off + length d) g.
Proof.
  intros H. unfold fw. destruct d as [|x d].
  - cbn [app length]. now rewrite Nat.add_0_r, firstn_skipn.
  - unfold file_write. now replace (off - length g)%nat with 0%nat by lia.
Qed.
Lemma slice_fw_before g off d a n : (off <= length g)%nat -> (a + n <= off)%nat -> slice a n (fw g off d) = slice a n g.
Proof.
  intros H1 H2. rewrite fw_eq by exact H1. unfold slice.
  assert (L : length (firstn off g) = off) by (rewrite firstn_length; lia).
  rewrite skipn_app_le by lia. rewrite firstn_app_le by (rewrite skipn_length; lia).
  rewrite skipn_firstn_comm, firstn_firstn. f_equal. lia.
Qed.
Lemma slice_fw_at g off d : (off <= length g)%nat -> slice off (length d) (fw g off d) = d.
Proof.
  intros H1. rewrite fw_eq by exact H1. unfold slice.
  assert (L : length (firstn off g) = off) by (rewrite firstn_length; lia).
  rewrite skipn_app_ge, L, Nat.sub_diag by lia. cbn [skipn]. apply firstn_exact.
Qed.
Lemma length_fw g off d : (off <= length g)%nat -> (off + length d <= length (fw g off d) /\ length g <= length (fw g off d))%nat.
Proof. intros H1. rewrite fw_eq by exact H1. rewrite !app_length, firstn_length, skipn_length. lia. Qed.
Lemma skipn_fw g off d : (off <= length g)%nat -> skipn (off + length d) (fw g off d) = skipn (off + length d) g.
Proof.
  intros H1. rewrite fw_eq by exact H1.
  assert (L : length (firstn off g) = off) by (rewrite firstn_length; lia).
  rewrite skipn_app_ge by lia. rewrite L. replace (off + length d - off)%nat with (length d) by lia. apply skipn_exact.
Qed.

Section WF.
Variables (f : bytes) (n : nat).
Hypothesis Hwf : well_formed f n.
Lemma ent_start_S i : ent_start f (S i) = ent_end f i. Proof. reflexivity. Qed.
Lemma ent_end_sum i : (i < n)%nat -> ent_end f i = ent_start f i + ent_size f i.
Proof. intros H. destruct (Hwf i H) as (A & _). unfold ent_size. lia. Qed.
Lemma ent_start_mono j i : (j <= i)%nat -> (i <= n)%nat -> ent_start f j <= ent_start f i.
Proof.
  induction 1 as [|i Hji IH]; intros Hi; [lia|]. specialize (IH ltac:(lia)). cbn [ent_start]. destruct (Hwf i ltac:(lia)) as (A & _). lia.
Qed.
Lemma ent_end_mono j i : (j < i)%nat -> (i <= n)%nat -> ent_end f j <= ent_start f i.
Proof. intros H1 H2. apply (ent_start_mono (S j) i); lia. Qed.

Variables (E : env) (b : bool) (g0 : bytes).
Lemma held_write i g d : (i < n)%nat -> held E b f g0 i g -> length d = N.to_nat (ent_size f i) ->
  (0 < ent_size f i -> hashes E b d (ent_id f i)) ->
  held E b f g0 (S i) (fw g (N.to_nat (ent_start f i)) d).
Proof.
  intros Hi (H1 & H2 & H3) Hd Hh. set (off := N.to_nat (ent_start f i)) in *.
  assert (Ho : (off <= length g)%nat) by (unfold off, blen in *; lia).
  assert (Hend : N.to_nat (ent_end f i) = (off + length d)%nat) by (rewrite (ent_end_sum i Hi); unfold off; lia).
  pose proof (length_fw g off d Ho) as (L1 & L2).
  split; [rewrite ent_start_S; unfold blen; lia|]. split.
  - rewrite ent_start_S, Hend, skipn_fw by exact Ho. now rewrite !skipn_add, H2.
  - intros j Hj. destruct (Nat.eq_dec j i) as [->|Hne].
    + split; [unfold blen; lia|]. intros Hp. fold off. rewrite <- Hd, slice_fw_at by exact Ho. auto.
    + assert (Hj' : (j < i)%nat) by lia. destruct (H3 j Hj') as (A & B). split; [unfold blen in *; lia|]. intros Hp. specialize (B Hp).
      rewrite slice_fw_before; auto.
      pose proof (ent_end_mono j i Hj' ltac:(lia)). rewrite (ent_end_sum j ltac:(lia)) in H. unfold off. lia.
Qed.
Lemma touched_write i g d k : (i < n)%nat -> held E b f g0 i g -> length d = N.to_nat (ent_size f i) ->
  (0 < ent_size f i -> hashes E b d (ent_id f i)) -> (k <= length d)%nat ->
  touched E b f g0 n (fw g (N.to_nat (ent_start f i)) (firstn k d)).
Proof.
  intros Hi Hg Hd Hh Hk. pose proof (held_write i g d Hi Hg Hd Hh) as HS. destruct Hg as (H1 & H2 & H3).
  set (off := N.to_nat (ent_start f i)) in *.
  assert (Ho : (off <= length g)%nat) by (unfold off, blen in *; lia).
  exists (S i), (fw g off d), (off + k)%nat. split; [lia|]. split; [exact HS|]. split.
  - rewrite ent_start_S, (ent_end_sum i Hi). unfold off. lia.
  - rewrite !fw_eq by exact Ho. assert (L : length (firstn off g) = off) by (rewrite firstn_length; lia).
    assert (Lk : length (firstn k d) = k) by (rewrite firstn_length; lia).
    rewrite firstn_app_ge by lia. rewrite L. replace (off + k - off)%nat with k by lia. rewrite firstn_app_le by lia.
    rewrite <- app_assoc, Lk. do 2 f_equal. now rewrite !skipn_add, H2.
Qed.
Lemma touched_held i g : (i <= n)%nat -> held E b f g0 i g -> touched E b f g0 n g.
Proof.
  intros Hi Hg. exists i, g, (N.to_nat (ent_start f i)). split; [exact Hi|]. split; [exact Hg|]. split; [lia|].
  destruct Hg as (_ & <- & _). now rewrite firstn_skipn.
Qed.
Lemma held_check i g : (i < n)%nat -> held E b f g0 i g -> (ent_start f i + ent_size f i <= blen g \/ ent_size f i = 0) ->
  hashes E b (slice_N (ent_start f i) (ent_size f i) g) (ent_id f i) -> held E b f g0 (S i) g.
Proof.
  intros Hi (H1 & H2 & H3) Hl Hh. assert (He := ent_end_sum i Hi).
  split; [rewrite ent_start_S; lia|]. split.
  - rewrite ent_start_S. replace (N.to_nat (ent_end f i)) with (N.to_nat (ent_start f i) + N.to_nat (ent_size f i))%nat by lia. now rewrite !skipn_add, H2.
  - intros j Hj. destruct (Nat.eq_dec j i) as [->|Hne]; [|apply H3; lia]. split; [lia|auto].
Qed.
End WF.

(** ** One entry *)
Definition is_query (ev : tev) : Prop := match ev with TQuery _ _ => True | _ => False end.
Definition is_write (ev : tev) : Prop := match ev with TWrite _ _ _ | TPut _ _ _ => True | _ => False end.
Definition no_query (tr : list tev) : Prop := forall ev, In ev tr -> ~ is_query ev.
Definition idle (tr : list tev) : Prop := forall ev, In ev tr -> ~ is_query ev /\ ~ is_write ev.

Section Sync.
Variables (E : env) (b : bool) (f : bytes) (n : nat) (tino : nat) (w0 : world).
Hypothesis (HE : env_ok E) (Hsv : server_ok E) (Hwf : well_formed f n) (Hok : bytes_ok f) (Hlen : (64 + 40 * n <= length f)%nat) (Hlim : blen f < OFF_LIMIT).
Notation g0 := (w_files w0 tino).

(** What may be seen while entry [i] is processed: requests for its id, and writes of pieces of data
    that has the entry's length and hash at the entry's place. *)
Definition entry_ev (i : nat) (ev : tev) : Prop :=
  match ev with
  | TQuery _ id => id = ent_id f i
  | TWrite ino o d => ino = tino /\ exists D, length D = N.to_nat (ent_size f i) /\ (0 < ent_size f i -> hashes E b D (ent_id f i)) /\
                      wr_ok (ent_start f i) D (o, d)
  | TPut ino o D => ino = tino /\ o = ent_start f i /\ length D = N.to_nat (ent_size f i) /\ (0 < ent_size f i -> hashes E b D (ent_id f i))
  | TSync _ => False
  | _ => True
  end.

(** Every byte of the target is as before or was handed to [target_write]. *)
Definition prov (w : world) : Prop := exists tr, w_trace w = tr ++ w_trace w0 /\
  forall k, nth_error (w_files w tino) k = nth_error g0 k \/
    exists o D q, In (TPut tino o D) tr /\ k = (N.to_nat o + q)%nat /\ (q < length D)%nat /\ nth_error (w_files w tino) k = nth_error D q.
Lemma prov_start : prov w0. Proof. exists []. split; [reflexivity|]. auto. Qed.
Lemma prov_quiet (P : tev -> Prop) w w' : quiet none P w w' -> prov w -> prov w'.
Proof.
  intros (F & _ & _ & _ & tr' & T & _) (tr & A & B). exists (tr' ++ tr). split; [now rewrite T, A, app_assoc|]. intros k. rewrite F by exact (fun x => x).
  destruct (B k) as [H|(o & D & q & H & K)]; [now left|right]. exists o, D, q. split; [apply in_or_app; now right|exact K].
Qed.
Lemma prov_write off D m w w' : wrote tino off D m w w' -> (N.to_nat off <= length (w_files w tino))%nat -> prov w -> prov w'.
Proof.
  intros (Hm & F & _ & (tr' & T & Hin) & _) Ho (tr & A & B). exists (tr' ++ tr). split; [now rewrite T, A, app_assoc|]. intros k. rewrite F.
  assert (HB : nth_error (w_files w tino) k = nth_error g0 k \/ exists o D q, In (TPut tino o D) (tr' ++ tr) /\ k = (N.to_nat o + q)%nat /\ (q < length D)%nat /\ nth_error (w_files w tino) k = nth_error D q).
  { destruct (B k) as [H|(o & D' & q & H & K)]; [now left|right]. exists o, D', q. split; [apply in_or_app; now right|exact K]. }
  rewrite fw_eq by exact Ho. set (off' := N.to_nat off) in *. assert (L1 : length (firstn off' (w_files w tino)) = off') by (rewrite firstn_length; lia).
  assert (L2 : length (firstn m D) = m) by (rewrite firstn_length; lia). rewrite L2.
  destruct (Nat.lt_ge_cases k off') as [H1|H1].
  - rewrite nth_error_app1 by lia. rewrite nth_error_firstn. replace (k <? off')%nat with true by (symmetry; now apply Nat.ltb_lt). exact HB.
  - rewrite nth_error_app2 by lia. rewrite L1. destruct (Nat.lt_ge_cases (k - off') m) as [H2|H2].
    + right. exists off, D, (k - off')%nat. split; [apply in_or_app; now left|]. split; [fold off'; lia|]. split; [lia|].
      rewrite nth_error_app1 by lia. rewrite nth_error_firstn. now replace (k - off' <? m)%nat with true by (symmetry; now apply Nat.ltb_lt).
    + rewrite nth_error_app2 by lia. rewrite L2, nth_error_skipn. replace (off' + m + (k - off' - m))%nat with k by lia. exact HB.
Qed.
(** The target at any stop *)
Definition stopped (w : world) : Prop := touched E b f g0 n (w_files w tino) /\ prov w.

Record MCore (i : nat) (st : mstate) (w : world) : Prop := mkMCore {
  mi_le : (i <= n)%nat;
  mi_files : forall k, k <> tino -> w_files w k = w_files w0 k;
  mi_io : suffix (w_io w) (w_io w0);
  mi_alloc : incl (w_alloc w) (w_alloc w0);
  mi_kc : kc_clean w0 -> kc_clean w;
  mi_mode : hash_mode b w;
  mi_held : held E b f g0 i (w_files w tino);
  mi_ino : t_ino (m_target st) = tino;
  mi_tgt : tgt_ok E b (w_files w tino) (ent_start f i) (m_target st);
  mi_size : t_queryable (m_target st) = true -> n_entries (t_idx (m_target st)) <= N.of_nat i;
  mi_chain : exists l, m_store st = Some l /\ Forall (sub_ok E b w (m_target st)) l;
  mi_buf : blen (m_buf st) = BUF_SIZE;
  mi_prov : prov w }.
(** The chunk of entry [j] is in the buffer. *)
Definition buffered (j : nat) (st : mstate) : Prop :=
  m_resuming st = false /\ m_last_id st = Some (ent_id f j) /\ ent_size f j <= BUF_SIZE /\
  (0 < ent_size f j -> hashes E b (firstn (N.to_nat (ent_size f j)) (m_buf st)) (ent_id f j)).
Definition MInv (i : nat) (last : N) (st : mstate) (w : world) : Prop :=
  last = ent_start f i /\ MCore i st w /\ (m_last_id st = None \/ exists j, i = S j /\ buffered j st).

Lemma MInv_io i last st w ev : MInv i last st w -> suffix ev (w_io w) -> MInv i last st (set_io ev w).
Proof. intros (A & [] & B) H. split; [exact A|]. split; [|exact B]. constructor; auto. cbn. eapply suffix_trans; eauto. Qed.

Lemma ent_id_length i : (i < n)%nat -> length (ent_id f i) = 32%nat.
Proof. intros H. unfold ent_id. apply length_slice. lia. Qed.
Lemma n_small : 60 * (N.of_nat n + 1) < 2 ^ 64.
Proof. unfold blen, OFF_LIMIT in Hlim. change (2 ^ 64) with 18446744073709551616. lia. Qed.

Lemma chain_ev_entry i ev : chain_ev (ent_id f i) ev -> entry_ev i ev.
Proof. destruct ev; cbn; tauto. Qed.
Lemma store_ev_entry i ev : store_ev ev -> entry_ev i ev.
Proof. destruct ev; cbn; tauto. Qed.

Lemma wp_progress m st (Q : bool * mstate -> world -> Prop) (R : bad -> world -> Prop) w :
  (forall h tr, (forall ev, In ev tr -> exists p, ev = TProgress p) -> 
     Q (true, mkM (m_store st) (m_target st) (m_last_id st) (m_resuming st) (m_buf st) (m_skipped st) h)
       (mkWorld (w_files w) (w_io w) (w_alloc w) (w_kcapi w) (w_kev w) (w_nperf w) (tr ++ w_trace w))) ->
  wp (entry_progress E m st) Q R w.
Proof.
  intros H. unfold entry_progress. destruct (e_interactive E).
  - apply wp_bind, wp_trace, wp_ret. apply (H _ [_]). intros ev [<-|[]]. eauto.
  - apply wp_ret. destruct st, w. apply (H _ []). intros ev [].
Qed.

(** After the request for the chunk (or without one) *)
Lemma added_tgt_ok g g' bound off len id fails t t' : tgt_ok E b g bound t -> added off len id fails t t' ->
  (forall s l, s + l <= bound -> slice_N s l g' = slice_N s l g) -> bound <= off ->
  (0 < len -> hashes E b (slice_N off len g') id) -> tgt_ok E b g' (off + len) t'.
Proof.
  intros Ht (A1 & A2 & A3) Hg Hb Hh Hq. rewrite A2 in Hq. rewrite Hq in A3. destruct A3 as (B1 & _ & B3 & _). destruct (Ht Hq) as (_ & Hent).
  split; [exact B1|]. intros e He. destruct (B3 e He) as [Hin|(-> & Hl)].
  - destruct (Hent e Hin) as (C1 & C2 & C3). split; [exact C1|]. split; [lia|]. rewrite Hg by exact C2. exact C3.
  - cbn. split; [exact Hl|]. split; [lia|auto].
Qed.
Lemma added_size off len id fails t t' i : (t_queryable t = true -> n_entries (t_idx t) <= N.of_nat i) -> added off len id fails t t' ->
  t_queryable t' = true -> n_entries (t_idx t') <= N.of_nat (S i).
Proof. intros H (A1 & A2 & A3) Hq. rewrite A2 in Hq. rewrite Hq in A3. specialize (H Hq). destruct A3 as (_ & _ & _ & _ & A3). lia. Qed.
Lemma MCore_queryable i st w : MCore i st w -> queryable_ok (m_target st).
Proof.
  intros [] Hq. split; [apply mi_tgt0, Hq|]. specialize (mi_size0 Hq). pose proof n_small as N0. change (2 ^ 64) with 18446744073709551616 in *. lia.
Qed.

(** A step that changes no file keeps the core; the target's index may have been reordered. *)
Lemma MCore_quiet (P : tev -> Prop) i st w w' st' l : MCore i st w -> quiet none P w w' -> same_target (m_target st) (m_target st') ->
  (t_queryable (m_target st) = true -> idx_ok (t_idx (m_target st'))) -> m_store st' = Some l -> Forall (sub_ok E b w' (m_target st')) l ->
  blen (m_buf st') = BUF_SIZE -> MCore i st' w'.
Proof.
  intros [] Q ST Hx Hs Hl Hb. pose proof Q as (Q1 & Q2 & Q3 & Q4 & Q5).
  assert (F : forall j, w_files w' j = w_files w j) by (intros j; apply Q1; exact (fun x => x)).
  constructor; auto.
  - intros k Hk. rewrite F. auto.
  - eapply suffix_trans; eauto.
  - eapply incl_tran; eauto.
  - intros H. apply Q4, mi_mode0, H.
  - now rewrite F.
  - destruct ST as (-> & _). exact mi_ino0.
  - rewrite F. eapply tgt_ok_same; eauto.
  - intros Hq. destruct ST as (_ & A & B). rewrite A in Hq. unfold n_entries, entries in *. rewrite <- (Permutation_length B). apply mi_size0, Hq.
  - eauto.
  - eapply prov_quiet; eauto.
Qed.

Definition ev_step (i : nat) (ev : tev) : Prop := entry_ev i ev /\ ~ is_query ev.
Definition ev_idle (ev : tev) : Prop := ~ is_query ev /\ ~ is_write ev /\ match ev with TSync _ => False | _ => True end.
Lemma ev_idle_step i ev : ev_idle ev -> ev_step i ev.
Proof. destruct ev; cbn; intros (A & B & C); split; cbn; tauto. Qed.
Lemma ev_step_entry i ev : ev_step i ev -> entry_ev i ev. Proof. intros H; apply H. Qed.

Lemma touched_core i st w : MCore i st w -> stopped w.
Proof. intros []. split; [eapply touched_held; eauto|assumption]. Qed.
Lemma stopped_quiet (P : tev -> Prop) i st w w' : MCore i st w -> quiet none P w w' -> stopped w'.
Proof.
  intros HC Q. destruct (touched_core _ _ _ HC) as (A & B). split; [|eapply prov_quiet; eauto]. destruct Q as (Q & _). rewrite Q by exact (fun x => x). exact A.
Qed.

(** Writing the buffered chunk *)
Definition write_program (m : N) (i : nat) (st : mstate) : M (bool * mstate) :=
  '(ok, t) <- target_write E (m_target st) (m_buf st) (ent_size f i) (ent_start f i) (ent_id f i) ;;
  let st := m_set st (m_store st) t (m_last_id st) (m_resuming st) (m_buf st) in
  if negb (ok : bool) then ret (false, st)
  else entry_progress E m st.

Lemma quiet_progress (S : nat -> Prop) (P : tev -> Prop) w tr : (forall p, P (TProgress p)) -> (forall ev, In ev tr -> exists p, ev = TProgress p) ->
  quiet S P w (mkWorld (w_files w) (w_io w) (w_alloc w) (w_kcapi w) (w_kev w) (w_nperf w) (tr ++ w_trace w)).
Proof.
  intros HP Htr. split; [auto|]. split; [apply suffix_refl|]. split; [apply incl_refl|]. split; [auto|]. exists tr. split; [reflexivity|].
  apply Forall_forall. intros ev Hev. destruct (Htr ev Hev) as (p & ->). apply HP.
Qed.

Lemma wp_write_step m i st w : (i < n)%nat -> MCore i st w -> buffered i st ->
  wp (write_program m i st)
    (fun r w' => quiet (eq tino) (ev_step i) w w' /\ m_resuming (snd r) = false /\
       if fst r then MInv (S i) (ent_end f i) (snd r) w' /\ m_last_id (snd r) = Some (ent_id f i)
       else stopped w')
    (fun bd w' => bd <> BUB /\ quiet (eq tino) (ev_step i) w w' /\ stopped w') w.
Proof.
  intros Hi HC (B1 & B2 & B3 & B4). destruct HE as (HH & Hq & Hb & Hz). pose proof (MCore_queryable _ _ _ HC) as Hqu.
  destruct HC as [C1 C2 C3 C4 C5 C6 C7 C8 C9 C10 (l & C11 & C12) C13 C14].
  unfold write_program. set (D := firstn (N.to_nat (ent_size f i)) (m_buf st)) in *.
  assert (LD : length D = N.to_nat (ent_size f i)) by (unfold D; rewrite firstn_length; unfold blen in *; lia).
  assert (Ho : (N.to_nat (ent_start f i) <= length (w_files w tino))%nat) by (destruct C7 as (C7 & _); unfold blen in *; lia).
  assert (QW : forall k w', wrote tino (ent_start f i) D k w w' -> quiet (eq tino) (ev_step i) w w').
  { intros k w' (_ & _ & _ & _ & Q). eapply quiet_mono; [| |exact Q]; [auto|]. intros [] He; cbn in He; try contradiction.
    - destruct He as (-> & He). split; [|cbn; auto]. cbn. split; [reflexivity|]. exists D. auto.
    - destruct He as (-> & -> & ->). split; [|cbn; auto]. cbn. auto. }
  assert (TW : forall k w', wrote tino (ent_start f i) D k w w' -> stopped w').
  { intros k w' W. pose proof W as (Hk & Hw & _). split; [rewrite Hw; apply touched_write; auto|eapply prov_write; eauto]. }
  apply wp_bind. apply wp_target_write; auto; [unfold blen in *; lia| | |]; rewrite ?C8; fold D.
  - intros t' w' W _ Had. cbn [negb]. apply wp_progress. intros h tr Htr. cbn [m_store m_target m_last_id m_resuming m_buf m_set m_skipped fst snd].
    set (w2 := mkWorld _ _ _ _ _ _ _).
    assert (Q2 : quiet (eq tino) (ev_step i) w w2).
    { eapply quiet_trans; [eapply QW; eauto|]. apply quiet_progress; [|exact Htr]. intros p. split; cbn; auto. }
    split; [exact Q2|]. split; [exact B1|]. split; [|exact B2].
    assert (HPr : prov w2).
    { eapply prov_quiet; [apply (quiet_progress none (fun _ => True) w' tr (fun _ => I) Htr)|]. eapply prov_write; eauto. }
    destruct W as (_ & W1 & _ & _ & W2). change (w_files w2 tino) with (w_files w' tino) in *. rewrite firstn_all in W1.
    split; [reflexivity|]. destruct Q2 as (Q2a & Q2b & Q2c & Q2d & Q2e). split.
    + constructor; cbn [m_store m_target m_buf]; auto.
      * intros k Hk. rewrite Q2a; auto.
      * eapply suffix_trans; eauto.
      * eapply incl_tran; eauto.
      * intros H. apply Q2d, C6, H.
      * change (w_files w2 tino) with (w_files w' tino). rewrite W1. apply held_write with (n := n); auto.
      * destruct Had as (-> & _). exact C8.
      * change (w_files w2 tino) with (w_files w' tino). rewrite W1.
        replace (ent_start f (S i)) with (ent_start f i + ent_size f i) by (rewrite ent_start_S; symmetry; now apply (ent_end_sum f n)).
        eapply added_tgt_ok; [exact C9|exact Had| |lia|].
        -- intros s k Hs. rewrite !slice_N_slice. apply slice_fw_before; [exact Ho|lia].
        -- intros Hp. rewrite slice_N_slice, <- LD, slice_fw_at by exact Ho. auto.
      * intros Hqt. eapply added_size; eauto.
      * exists l. split; [exact C11|]. eapply subs_ok_stable; [| |exact C12].
        -- intros j Hj. rewrite C8 in Hj. apply Q2a. congruence.
        -- apply Had.
    + right. exists i. split; [reflexivity|]. split; [exact B1|]. split; [exact B2|]. split; [exact B3|exact B4].
  - intros k w' W _. cbn [negb]. apply wp_ret. cbn [fst snd m_set m_resuming]. split; [eapply QW; eauto|]. split; [exact B1|]. eapply TW; eauto.
  - intros bd k w' W Hbd _. split; [exact Hbd|]. split; [eapply QW; eauto|eapply TW; eauto].
Qed.

(** Obtaining the chunk and writing it *)
Lemma wp_fetch_write m i st w : (i < n)%nat -> MInv i (ent_start f i) st w -> m_resuming st = false ->
  let P := fun ev => entry_ev i ev /\ (m_last_id st = Some (ent_id f i) -> ~ is_query ev) in
  wp (entry_fetch_write E m (ent_start f i) (ent_size f i) (ent_id f i) st)
    (fun r w' => quiet (eq tino) P w w' /\ m_resuming (snd r) = false /\
       if fst r then MInv (S i) (ent_end f i) (snd r) w' /\ m_last_id (snd r) = Some (ent_id f i)
       else stopped w')
    (fun bd w' => bd <> BUB /\ quiet (eq tino) P w w' /\ stopped w') w.
Proof.
  intros Hi (_ & HC & HL) Hres P. unfold entry_fetch_write.
  assert (HP : forall ev, ev_step i ev -> P ev) by (intros ev (A & B); split; auto).
  set (have := match m_last_id st with Some l => beq l (ent_id f i) | None => false end).
  assert (Hhave : have = true -> m_last_id st = Some (ent_id f i)).
  { unfold have. destruct (m_last_id st) as [l|]; [|discriminate]. intros H. apply beq_eq in H. congruence. }
  assert (Hnot : have = false -> m_last_id st <> Some (ent_id f i)).
  { unfold have. destruct (m_last_id st) as [l|]; [|discriminate]. intros H. apply beq_neq in H. congruence. }
  clearbody have. apply wp_bind. destruct have.
  - apply wp_ret. cbn [negb]. specialize (Hhave eq_refl).
    assert (B : buffered i st).
    { destruct HL as [HL|(j & -> & (A & B & C & D))]; [congruence|]. assert (Eid : ent_id f j = ent_id f (S j)) by congruence.
      destruct (Hwf j ltac:(lia)) as (_ & _ & W). specialize (W Hi Eid). split; [exact A|]. split; [exact Hhave|]. rewrite <- W, <- Eid. auto. }
    eapply wp_mono; [apply (wp_write_step m i st w Hi HC B)| |].
    + intros r w' (Q & R1 & R2). split; [eapply quiet_mono; [| |exact Q]; auto|auto].
    + intros bd w' (A & Q & R). split; [exact A|]. split; [eapply quiet_mono; [| |exact Q]; auto|exact R].
  - pose proof HC as HC0. destruct HC as [C1 C2 C3 C4 C5 C6 C7 C8 C9 C10 (l & C11 & C12) C13 C14]. rewrite C11. specialize (Hnot eq_refl).
    assert (HPc : forall ev, chain_ev (ent_id f i) ev -> P ev).
    { intros ev Hev. split; [now apply chain_ev_entry|]. contradiction. }
    apply wp_bind. unfold store_chain_get_chunk.
    eapply wp_mono; [apply (wp_chain_loop E b HE Hsv (ent_start f i) (ent_id f i) (ent_id_length i Hi) l 0 (m_target st) (m_buf st) w)| |]; auto.
    + now rewrite C8.
    + rewrite C8. apply C7.
    + intros [[[r buf] l'] t'] w1 (Q1 & (A1 & A2) & S1 & _ & ST & Hx). cbn [fst snd] in A1, A2.
      assert (QP : quiet (eq tino) P w w1) by (eapply quiet_mono; [| |exact Q1]; [intros ? []|exact HPc]).
      assert (F : forall j, w_files w1 j = w_files w j) by (intros j; apply Q1; exact (fun x => x)).
      destruct (match r with Some k => k =? ent_size f i | None => false end) eqn:Eg.
      * apply wp_ret. cbn [negb]. destruct r as [k|]; [|discriminate]. apply N.eqb_eq in Eg. subst k.
        set (st1 := m_set st (Some l') t' (Some (ent_id f i)) (m_resuming st) buf).
        assert (HC1 : MCore i st1 w1).
        { eapply MCore_quiet with (st := st) (w := w); eauto; [reflexivity|]. cbn. unfold blen in *. rewrite A1. exact C13. }
        assert (B : buffered i st1).
        { split; [exact Hres|]. split; [reflexivity|]. destruct (N.eq_0_gt_0_cases (ent_size f i)) as [Z|Hp].
          - rewrite Z. split; [unfold BUF_SIZE; lia|]. lia.
          - destruct (A2 Hp) as (A3 & A4). rewrite C13 in A3. split; [exact A3|]. intros _. exact A4. }
        eapply wp_mono; [apply (wp_write_step m i st1 w1 Hi HC1 B)| |].
        -- intros r w' (Q & R1 & R2). split; [eapply quiet_trans; [exact QP|]; eapply quiet_mono; [| |exact Q]; auto|auto].
        -- intros bd w' (A & Q & R). split; [exact A|]. split; [eapply quiet_trans; [exact QP|]; eapply quiet_mono; [| |exact Q]; auto|exact R].
      * apply wp_ret. cbn [negb]. apply wp_ret. cbn [fst snd]. split; [exact QP|]. split; [exact Hres|]. eapply stopped_quiet; eauto.
    + intros bd w1 (Q1 & Hb). split; [exact Hb|]. split; [eapply quiet_mono; [| |exact Q1]; [intros ? []|exact HPc]|].
      assert (F : forall j, w_files w1 j = w_files w j) by (intros j; apply Q1; exact (fun x => x)). eapply stopped_quiet; eauto.
Qed.

(** Why the contents of the target were not taken over for entry [i]. *)
Definition differs (i : nat) (w : world) : Prop :=
  kc_clean w -> error_free (w_io w) -> ent_size f i <= BUF_SIZE -> ent_start f i + ent_size f i <= blen (w_files w tino) ->
  ent_start f i < OFF_LIMIT -> e_H E (slice_N (ent_start f i) (ent_size f i) (w_files w tino)) <> ent_id f i.

Lemma wp_entry_cb m i st w : (i < n)%nat -> MInv i (ent_start f i) st w ->
  let P := fun ev => entry_ev i ev /\ (m_last_id st = Some (ent_id f i) -> ~ is_query ev) in
  let skip w' := quiet (eq tino) ev_idle w w' in
  let active w' := (m_resuming st = true -> differs i w) /\ quiet (eq tino) P w w' in
  wp (entry_cb E m (ent_start f i) (ent_size f i) (ent_id f i) st)
    (fun r w' => 
       if fst r then MInv (S i) (ent_end f i) (snd r) w' /\
          (skip w' /\ m_resuming st = true /\ m_resuming (snd r) = true \/
           active w' /\ m_resuming (snd r) = false /\ m_last_id (snd r) = Some (ent_id f i))
       else stopped w' /\ (skip w' \/ active w'))
    (fun bd w' => bd <> BUB /\ stopped w' /\ (skip w' \/ active w')) w.
Proof.
  intros Hi HI P skip active. unfold entry_cb. destruct (m_resuming st) eqn:Er.
  2:{ eapply wp_mono; [apply (wp_fetch_write m i st w Hi HI Er)| |].
      - intros r w' (Q & R1 & R2). destruct (fst r).
        + destruct R2 as (R2 & R3). split; [exact R2|]. right. split; [split; [discriminate|exact Q]|auto].
        + split; [exact R2|]. right. split; [discriminate|exact Q].
      - intros bd w' (A & Q & R). split; [exact A|]. split; [exact R|]. right. split; [discriminate|exact Q]. }
  destruct HI as (_ & HC & HL). destruct (BUF_SIZE <? ent_size f i) eqn:Eb.
  { apply wp_ret. cbn [fst]. split; [eapply touched_core; eauto|]. left. apply quiet_refl. }
  pose proof HC as HC0. pose proof (MCore_queryable _ _ _ HC) as Hqu. destruct HE as (HH & Hq & Hb & Hz).
  destruct HC as [C1 C2 C3 C4 C5 C6 C7 C8 C9 C10 (l & C11 & C12) C13 C14].
  assert (Hnone : m_last_id st = None).
  { destruct HL as [HL|(j & _ & (A & _))]; [exact HL|congruence]. }
  apply wp_bind. apply wp_check_chunk with (b := b); auto; [lia| | |]; rewrite ?C8.
  - (* taken over *)
    intros tmp t' w' Q U L1 Hr Hh Ho Had. cbn [m_store m_target m_last_id m_buf m_skipped m_handled].
    assert (F := quiet0_files _ _ Q). apply wp_progress. intros h tr Htr. cbn [fst snd m_store m_target m_last_id m_resuming m_buf m_skipped].
    set (w2 := mkWorld _ _ _ _ _ _ _). change (w_files w2) with (w_files w').
    assert (Q2 : quiet none ev_idle w w2).
    { eapply quiet_trans; [eapply quiet_mono; [| |exact Q]; [auto|]|apply quiet_progress; [|exact Htr]].
      - intros [] He; cbn in *; try contradiction; repeat split; auto.
      - intros p. repeat split; cbn; auto. }
    split.
    + split; [reflexivity|]. split; [|left; exact Hnone]. pose proof Q2 as (Q2a & Q2b & Q2c & Q2d & Q2e).
      assert (HPr : prov w2) by (eapply prov_quiet; eauto).
      constructor; cbn [m_store m_target m_buf]; auto.
      * intros k Hk. change (w_files w2) with (w_files w'). rewrite F. auto.
      * eapply suffix_trans; eauto.
      * eapply incl_tran; eauto.
      * intros H. apply Q2d, C6, H.
      * change (w_files w2) with (w_files w'). rewrite F. eapply held_check; eauto.
      * destruct Had as (-> & _). exact C8.
      * change (w_files w2) with (w_files w'). rewrite F. replace (ent_start f (S i)) with (ent_start f i + ent_size f i) by (rewrite ent_start_S; symmetry; now apply (ent_end_sum f n)).
        eapply added_tgt_ok; [exact C9|exact Had|auto|lia|]. intros _. exact Hh.
      * intros Hqt. eapply added_size; eauto.
      * exists l. split; [exact C11|]. eapply subs_ok_stable; [| |exact C12]; [intros j _; change (w_files w2) with (w_files w'); apply F|apply Had].
      * unfold blen in *. rewrite L1. exact C13.
    + left. split; [|auto]. eapply quiet_mono; [| |exact Q2]; [intros ? []|auto].
  - (* not taken over *)
    intros r tmp w1 Q Hr L1 U Hdiff.
    assert (Hd : differs i w) by (intros D1 D2 D3 D4 D5; apply Hdiff; auto).
    set (st1 := m_set st (m_store st) (m_target st) (m_last_id st) false tmp).
    assert (HC1 : MCore i st1 w1).
    { eapply MCore_quiet with (st := st) (w := w); [exact HC0|exact Q|apply same_target_refl|intros E1; now apply C9|exact C11| |].
      - eapply subs_ok_stable; [| |exact C12]; [intros j _; apply (quiet0_files _ _ Q)|reflexivity].
      - cbn. unfold blen in *. rewrite L1. exact C13. }
    assert (QP : quiet (eq tino) P w w1).
    { eapply quiet_mono; [| |exact Q]; [intros ? []|]. intros [] He; cbn in He; try contradiction; split; cbn; auto. }
    assert (G : wp (entry_fetch_write E m (ent_start f i) (ent_size f i) (ent_id f i) st1)
       (fun r w' => if fst r then MInv (S i) (ent_end f i) (snd r) w' /\
          (skip w' /\ true = true /\ m_resuming (snd r) = true \/
           active w' /\ m_resuming (snd r) = false /\ m_last_id (snd r) = Some (ent_id f i))
       else stopped w' /\ (skip w' \/ active w'))
       (fun bd w' => bd <> BUB /\ stopped w' /\ (skip w' \/ active w')) w1).
    { assert (HI1 : MInv i (ent_start f i) st1 w1) by (split; [reflexivity|]; split; [exact HC1|left; exact Hnone]).
      eapply wp_mono; [apply (wp_fetch_write m i st1 w1 Hi HI1 eq_refl)| |].
      - intros r2 w' (Q3 & R1 & R2). assert (Q4 : quiet (eq tino) P w w') by (eapply quiet_trans; [exact QP|]; exact Q3). destruct (fst r2).
        + destruct R2 as (R2 & R3). split; [exact R2|]. right. split; [split; [intros _; exact Hd|exact Q4]|auto].
        + split; [exact R2|]. right. split; [intros _; exact Hd|exact Q4].
      - intros bd w' (A & Q3 & R). assert (Q4 : quiet (eq tino) P w w') by (eapply quiet_trans; [exact QP|]; exact Q3).
        split; [exact A|]. split; [exact R|]. right. split; [intros _; exact Hd|exact Q4]. }
    destruct r as [[|]|]; [congruence|exact G|exact G].
  - intros bd w' Q Hbd. assert (F := quiet0_files _ _ Q).
    split; [destruct Hbd as [[-> _]|[-> _]]; discriminate|]. split; [eapply stopped_quiet; eauto|]. left.
    eapply quiet_mono; [| |exact Q]; [intros ? []|]. intros [] He; cbn in *; try contradiction; repeat split; auto.
Qed.
End Sync.
