(** The main program: all entries of an index. *)
From Coq Require Import Sorting.Permutation.
From Verif Require Import Base Lib Utils Sha Chunker Caibx Index StoreLocal Target StoreHttp Chain Ui MainProg
  SpecBasic SpecEnv SpecChunker SpecStore SpecHttp SpecCaibx SpecMain
  PfUtils PfBasic PfIO PfRead PfIndex PfFrame PfLocal PfHttp PfCaibx PfTarget PfChain PfMain.
Local Open Scope N_scope.

(** The first [k] entries only *)
Section Prefix.
Context {A : Type}.
Variables (cb : N -> N -> bytes -> A -> M (bool * A)) (ino : nat) (p : params) (f : bytes) (n : nat).
Hypothesis (Hok : bytes_ok f) (Hlen : (64 + 40 * n <= length f)%nat) (Hlim : blen f < OFF_LIMIT).
Variables (Inv : nat -> N -> A -> world -> Prop) (Fail : A -> world -> Prop) (R : bad -> world -> Prop).
Hypothesis Hfile : forall i last a w, Inv i last a w -> w_files w ino = f.
Hypothesis Hio : forall i last a w ev, (i < n)%nat -> Inv i last a w -> suffix ev (w_io w) ->
  (transfers (w_io w) <= transfers ev + 40)%nat ->
  if skipped p f n last i then Inv (S i) last a (set_io ev w)
  else wp (cb last (ent_len f last i mod 2 ^ 32) (ent_id f i) a)
          (fun r w' => if fst r then Inv (S i) (ent_end f i) (snd r) w' else Fail (snd r) w') R (set_io ev w).
Hypothesis Herr : forall i last a w ev, (i < n)%nat -> Inv i last a w -> suffix ev (w_io w) ->
  ~ error_free (w_io w) -> Fail a (set_io ev w).
Hypothesis Hhalt : forall i last a w, (i < n)%nat -> Inv i last a w -> (transfers (w_io w) < 40)%nat -> R BHalt (set_io [] w).
Lemma iterate_prefix_rule : forall k i last a w, (i + k <= n)%nat -> Inv i last a w ->
  wp (iterate_loop cb ino p (N.of_nat n) k (N.of_nat i) last a)
     (fun r w' => if fst r then exists last', Inv (i + k) last' (snd r) w' else Fail (snd r) w') R w.
Proof.
  induction k as [|k IH]; intros i last a w Hk HI; cbn [iterate_loop].
  - apply wp_ret. cbn [fst snd]. rewrite Nat.add_0_r. eauto.
  - apply wp_bind. unfold readall. change CA_HEADER_LEN with 48. change CA_TABLE_HEADER_LEN with 16. change CA_TABLE_ENTRY_LEN with 40.
    apply wp_pread; rewrite ?(Hfile _ _ _ _ HI).
    + intros ev' Hs _ _ _ Ht. cbn [negb].
      replace (N.to_nat 40) with 40%nat in Ht by reflexivity.
      assert (Hi : (i < n)%nat) by lia.
      pose proof (Hio _ _ _ _ _ Hi HI Hs Ht) as Hc.
      rewrite slice_N_slice.
      replace (N.to_nat (48 + 16 + N.of_nat i * 40)) with (64 + 40 * i)%nat by lia.
      rewrite (unp64_field0 f _ 40) by (auto; lia). change (N.to_nat 40) with 40%nat. rewrite skipn_slice. fold (ent_end f i).
      change SIZE_MOD with (2 ^ 64). fold (ent_len f last i). fold (skipped p f n last i).
      replace (slice (64 + 40 * i + 8) (40 - 8) f) with (ent_id f i) by (unfold ent_id; f_equal; lia).
      replace (N.of_nat i + 1) with (N.of_nat (S i)) in * by lia.
      replace (i + S k)%nat with (S i + k)%nat by lia.
      destruct (skipped p f n last i).
      * apply IH; [lia|exact Hc].
      * apply wp_bind. change M32 with (2 ^ 32). eapply wp_mono; [exact Hc| |auto]. intros [ok a'] w' H. cbn [fst snd] in H.
        destruct ok; cbn [negb]; [apply IH; [lia|exact H]|apply wp_ret; exact H].
    + intros ev' m Hs _ _ Hr. cbn [negb]. apply wp_ret. cbn [fst snd]. eapply (Herr i); eauto; [lia|].
      destruct Hr as [Hr|Hr]; [exact Hr|]. unfold blen in *. lia.
    + intros Hh. eapply (Hhalt i); eauto; lia.
Qed.
End Prefix.

Section Sync.
Variables (E : env) (b : bool) (f : bytes) (n : nat) (tino iino : nat) (p : params) (w0 : world).
Hypothesis (HE : env_ok E) (Hsv : server_ok E) (Hwf : well_formed f n) (Hok : bytes_ok f) (Hlen : (64 + 40 * n <= length f)%nat) (Hlim : blen f < OFF_LIMIT).
Hypothesis (Hino : iino <> tino) (Hf0 : w_files w0 iino = f).
Notation g0 := (w_files w0 tino).
Notation MI := (MInv E b f n tino w0).

Lemma ent_len_size i : (i < n)%nat -> ent_len f (ent_start f i) i = ent_size f i.
Proof.
  intros Hi. destruct (Hwf i Hi) as (A & B & _). unfold ent_len. assert (C := field_lt f (64 + 40 * i) Hok). fold (ent_end f i) in C.
  unfold ent_size in *. change (2 ^ 64) with 18446744073709551616 in *. change (2 ^ 32) with 4294967296 in *.
  replace (ent_end f i + 18446744073709551616 - ent_start f i) with (ent_end f i - ent_start f i + 1 * 18446744073709551616) by lia.
  rewrite N.mod_add by lia. apply N.mod_small. lia.
Qed.
Lemma not_skipped i : (i < n)%nat -> skipped p f n (ent_start f i) i = false.
Proof.
  intros Hi. unfold skipped. rewrite ent_len_size by exact Hi. destruct (Hwf i Hi) as (_ & B & _).
  replace (UINT32_MAX <? ent_size f i) with false by (unfold UINT32_MAX; change (2 ^ 32) with 4294967296 in B; lia). apply andb_false_r.
Qed.

(** The beginning of the target is already right: the first [k] entries are found there. *)
Definition already (k : nat) : Prop := forall j, (j < k)%nat -> ent_size f j <= BUF_SIZE /\ ent_end f j <= blen g0 /\ ent_start f j < OFF_LIMIT /\
  e_H E (slice_N (ent_start f j) (ent_size f j) g0) = ent_id f j.

(** What is seen during a run, entry by entry (oldest first). *)
Definition segmented (segs : list (list tev)) (w : world) : Prop :=
  w_trace w = concat (rev segs) ++ w_trace w0 /\ (length segs <= n)%nat /\
  (forall j seg, nth_error segs j = Some seg -> Forall (entry_ev E b f tino j) seg) /\
  (forall j s1 s2, nth_error segs j = Some s1 -> nth_error segs (S j) = Some s2 -> ent_id f j = ent_id f (S j) -> ~ no_query s1 -> no_query s2) /\
  (forall k, (k <= n)%nat -> kc_clean w0 -> error_free (w_io w0) -> already k -> forall j seg, (j < k)%nat -> nth_error segs j = Some seg -> Forall ev_idle seg).
Definition SInv (i : nat) (last : N) (st : mstate) (w : world) : Prop :=
  MI i last st w /\ exists segs, segmented segs w /\ length segs = i /\
    (forall j seg, nth_error segs j = Some seg -> S j = i -> ~ no_query seg -> m_last_id st = Some (ent_id f j)) /\
    (kc_clean w0 -> error_free (w_io w0) -> already i -> m_resuming st = true).
Definition SStop (w : world) : Prop := stopped E b f n tino w0 w /\ (forall k, k <> tino -> w_files w k = w_files w0 k) /\ exists segs, segmented segs w.

Lemma SInv_io i last st w ev : SInv i last st w -> suffix ev (w_io w) -> SInv i last st (set_io ev w).
Proof. intros (A & B) H. split; [now apply MInv_io|exact B]. Qed.
Lemma SInv_stop i last st w : SInv i last st w -> SStop w.
Proof.
  intros ((_ & HC & _) & segs & Hs & _). split; [eapply touched_core; eauto|]. split; [apply HC|eauto].
Qed.

(** The target still has its old contents from the entry on. *)
Lemma already_now i st w : (i < n)%nat -> MCore E b f n tino w0 i st w -> kc_clean w0 -> error_free (w_io w0) -> already (S i) -> ~ differs E f tino i w.
Proof.
  intros Hi HC Hk He Ha Hd. destruct (Ha i ltac:(lia)) as (A1 & A2 & A3 & A4). destruct (mi_held _ _ _ _ _ _ _ _ _ HC) as (B1 & B2 & B3).
  assert (Hsum := ent_end_sum f n Hwf i Hi).
  assert (LS : length (skipn (N.to_nat (ent_start f i)) (w_files w tino)) = length (skipn (N.to_nat (ent_start f i)) g0)) by now rewrite B2.
  rewrite !skipn_length in LS. apply Hd; auto.
  - now apply HC.
  - eapply error_free_suffix; [apply HC|exact He].
  - unfold blen in *. lia.
  - rewrite slice_N_slice. unfold slice. rewrite B2. exact A4.
Qed.

Lemma no_query_not tr : (forall ev, In ev tr -> ~ is_query ev) -> no_query tr. Proof. auto. Qed.

(** One more segment *)
Lemma segmented_snoc i last st w w1 w' seg : (i < n)%nat -> SInv i last st w -> w_trace w1 = w_trace w ->
  (forall segs, segmented segs w -> length segs = i -> 
     (forall j s, nth_error segs j = Some s -> S j = i -> ~ no_query s -> m_last_id st = Some (ent_id f j)) -> True) ->
  w_trace w' = seg ++ w_trace w1 -> Forall (entry_ev E b f tino i) seg ->
  (m_last_id st = Some (ent_id f i) -> no_query seg) ->
  (kc_clean w0 -> error_free (w_io w0) -> already (S i) -> Forall ev_idle seg) ->
  exists segs, segmented segs w' /\ length segs = S i /\ nth_error segs i = Some seg.
Proof.
  intros Hi (HM & segs & (S1 & S2 & S3 & S4 & S5) & L & Hq & Hr) Hw1 _ Htr Hev Hnq Hidle.
  assert (N1 : forall j, (j < i)%nat -> nth_error (segs ++ [seg]) j = nth_error segs j) by (intros j Hj; apply nth_error_app1; lia).
  assert (N2 : nth_error (segs ++ [seg]) i = Some seg) by (rewrite nth_error_app2, L, Nat.sub_diag by lia; reflexivity).
  assert (N3 : forall j, (i < j)%nat -> nth_error (segs ++ [seg]) j = None) by (intros j Hj; apply nth_error_None; rewrite app_length; cbn; lia).
  exists (segs ++ [seg]). split; [|split; [rewrite app_length; cbn; lia|exact N2]]. split; [|split; [rewrite app_length; cbn; lia|split; [|split]]].
  - rewrite rev_app_distr. cbn [rev app concat]. now rewrite Htr, Hw1, S1, app_assoc.
  - intros j s Hj. destruct (lt_eq_lt_dec j i) as [[Hlt| ->]|Hgt].
    + rewrite N1 in Hj by exact Hlt. eapply S3; eauto.
    + rewrite N2 in Hj. injection Hj as <-. exact Hev.
    + rewrite N3 in Hj by exact Hgt. discriminate.
  - intros j s1 s2 Hj1 Hj2 Heq Hn. destruct (lt_eq_lt_dec (S j) i) as [[Hlt|Heq']|Hgt].
    + rewrite N1 in Hj1 by lia. rewrite N1 in Hj2 by lia. exact (S4 j s1 s2 Hj1 Hj2 Heq Hn).
    + rewrite N1 in Hj1 by lia. rewrite Heq', N2 in Hj2. injection Hj2 as <-. apply Hnq. rewrite <- Heq', <- Heq. eapply Hq; eauto.
    + rewrite N3 in Hj2 by lia. discriminate.
  - intros k Hk C EF Ha j s Hj Hs. destruct (lt_eq_lt_dec j i) as [[Hlt| ->]|Hgt].
    + rewrite N1 in Hs by exact Hlt. eapply S5; eauto.
    + rewrite N2 in Hs. injection Hs as <-. apply Hidle; auto. intros j' Hj'. apply Ha. lia.
    + rewrite N3 in Hs by exact Hgt. discriminate.
Qed.

Lemma quiet_trace S P w w' : quiet S P w w' -> exists tr, w_trace w' = tr ++ w_trace w /\ Forall P tr.
Proof. intros (_ & _ & _ & _ & H). exact H. Qed.
Lemma quiet_others (P : tev -> Prop) w w' k : quiet (eq tino) P w w' -> k <> tino -> w_files w' k = w_files w k.
Proof. intros (H & _) Hk. apply H. congruence. Qed.

Lemma sync_entry m i last st w ev : (i < n)%nat -> SInv i last st w -> suffix ev (w_io w) ->
  wp (entry_cb E m last (ent_size f i) (ent_id f i) st)
    (fun r w' => if fst r then SInv (S i) (ent_end f i) (snd r) w' else SStop w')
    (fun bd w' => bd <> BUB /\ SStop w') (set_io ev w).
Proof.
  intros Hi HS Hev. apply (SInv_io _ _ _ _ ev) in HS; [|exact Hev]. set (w1 := set_io ev w) in *. clearbody w1. clear w Hev.
  pose proof HS as ((Hlast & HC & HL) & _). pose proof HS as (HM & segs0 & HSg & Lsegs & Hq & Hres). subst last.
  assert (Hskip : forall w' (X : Prop), quiet (eq tino) ev_idle w1 w' -> exists seg, w_trace w' = seg ++ w_trace w1 /\ Forall ev_idle seg) by (intros; now apply quiet_trace in H).
  set (P := fun e => entry_ev E b f tino i e /\ (m_last_id st = Some (ent_id f i) -> ~ is_query e)).
  set (active := fun w' => (m_resuming st = true -> differs E f tino i w1) /\ quiet (eq tino) P w1 w').
  assert (Sk : forall w', quiet (eq tino) ev_idle w1 w' -> exists seg segs, segmented segs w' /\ length segs = S i /\ nth_error segs i = Some seg /\ no_query seg).
  { intros w' Q. apply quiet_trace in Q as (seg & Q1 & Q2). exists seg.
    assert (NQ : no_query seg) by (intros e He; rewrite Forall_forall in Q2; apply Q2, He).
    destruct (segmented_snoc i _ st w1 w1 w' seg Hi HS eq_refl ltac:(auto) Q1) as (segs & A1 & A2 & A3); auto.
    - eapply Forall_impl; [|exact Q2]. intros e He. apply ev_step_entry, ev_idle_step, He.
    - exists segs. auto. }
  assert (Ac : forall w', active w' -> exists seg segs, segmented segs w' /\ length segs = S i /\ nth_error segs i = Some seg /\
       ~ (kc_clean w0 /\ error_free (w_io w0) /\ already (S i))).
  { intros w' (D & Q). assert (Hno : ~ (kc_clean w0 /\ error_free (w_io w0) /\ already (S i))).
    { intros (A1 & A2 & A3). eapply already_now with (w := w1); eauto. apply D, Hres; auto. intros j Hj. apply A3. lia. }
    apply quiet_trace in Q as (seg & Q1 & Q2). exists seg. rewrite Forall_forall in Q2.
    destruct (segmented_snoc i _ st w1 w1 w' seg Hi HS eq_refl ltac:(auto) Q1) as (segs & A1 & A2 & A3); auto.
    - apply Forall_forall. intros e He. apply Q2, He.
    - intros Hl e He. now apply Q2.
    - intros A1 A2 A3. exfalso. auto.
    - exists segs. auto. }
  assert (Fl : forall w', quiet (eq tino) ev_idle w1 w' \/ active w' -> (forall k, k <> tino -> w_files w' k = w_files w0 k) /\ exists segs, segmented segs w').
  { intros w' [Q|A].
    - split; [|destruct (Sk w' Q) as (seg & segs & A1 & _); eauto]. intros k Hk. rewrite (quiet_others _ _ _ _ Q Hk). now apply HC.
    - split; [|destruct (Ac w' A) as (seg & segs & A1 & _); eauto]. intros k Hk. destruct A as (_ & Q). rewrite (quiet_others _ _ _ _ Q Hk). now apply HC. }
  eapply wp_mono; [apply (wp_entry_cb E b f n tino w0 HE Hsv Hwf Hlen Hlim m i st w1 Hi HM)| |].
  - intros r w' H. cbv beta zeta in H. destruct (fst r).
    + destruct H as (H1 & [(H2 & H3 & H4)|(H2 & H3 & H4)]).
      * split; [exact H1|]. destruct (Sk w' H2) as (seg & segs & A1 & A2 & A3 & A4). exists segs. split; [exact A1|]. split; [exact A2|]. split.
        -- intros j s Hj Hji Hn. injection Hji as ->. rewrite A3 in Hj. injection Hj as <-. contradiction.
        -- intros _ _ _. exact H4.
      * split; [exact H1|]. destruct (Ac w' H2) as (seg & segs & A1 & A2 & A3 & A4). exists segs. split; [exact A1|]. split; [exact A2|]. split.
        -- intros j s Hj Hji Hn. injection Hji as ->. exact H4.
        -- intros C1 C2 C3. exfalso. apply A4. auto.
    + destruct H as (H1 & H2). split; [exact H1|]. apply Fl, H2.
  - intros bd w' H. cbv beta zeta in H. destruct H as (H0 & H1 & H2). split; [exact H0|]. split; [exact H1|]. apply Fl, H2.
Qed.

Lemma segmented_nil : segmented [] w0.
Proof.
  split; [reflexivity|]. split; [cbn; lia|]. split; [intros j seg H; destruct j; discriminate|]. split; [intros j s1 s2 H; destruct j; discriminate|].
  intros k _ _ _ _ j seg _ H. destruct j; discriminate.
Qed.

Lemma sync_prefix m k st : (k <= n)%nat -> MI 0 0 st w0 -> m_resuming st = true ->
  wp (iterate_loop (entry_cb E m) iino p (N.of_nat n) k 0 0 st)
     (fun r w' => if fst r then exists last', SInv k last' (snd r) w' else SStop w') (fun bd w' => bd <> BUB /\ SStop w') w0.
Proof.
  intros Hk HM Hr. 
  apply (iterate_prefix_rule (entry_cb E m) iino p f n Hok Hlen Hlim SInv (fun _ => SStop) (fun bd w' => bd <> BUB /\ SStop w')) with (i := O).
  - intros i last st' w ((_ & HC & _) & _). rewrite <- Hf0. now apply HC.
  - intros i last st' w ev Hi HS Hev _. pose proof HS as ((-> & _) & _). rewrite (not_skipped i Hi), (ent_len_size i Hi).
    destruct (Hwf i Hi) as (_ & B & _). rewrite N.mod_small by exact B. now apply sync_entry.
  - intros i last st' w ev Hi HS Hev _. eapply SInv_stop, SInv_io; eauto.
  - intros i last st' w Hi HS _. split; [discriminate|]. eapply SInv_stop, SInv_io; eauto. exists (w_io w). now rewrite app_nil_r.
  - exact Hk.
  - split; [exact HM|]. exists []. split; [apply segmented_nil|]. split; [reflexivity|]. split; [intros j seg H; destruct j; discriminate|auto].
Qed.
Lemma sync_all m st : MI 0 0 st w0 -> m_resuming st = true ->
  wp (caibx_iterate_entries (entry_cb E m) iino p (N.of_nat n) st)
     (fun r w' => if fst r then exists last', SInv n last' (snd r) w' else SStop w') (fun bd w' => bd <> BUB /\ SStop w') w0.
Proof. intros HM Hr. unfold caibx_iterate_entries. rewrite Nat2N.id. now apply sync_prefix. Qed.
End Sync.
