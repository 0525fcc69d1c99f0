(** When assertions hold (C55). *)
From Coq Require Import Sorting.Permutation.
From Verif Require Import Base Lib Utils Sha Encrypt Discr Chunker Caibx Index StoreLocal Target StoreHttp Chain Ui MainProg
  SpecBasic SpecEnv SpecChunker SpecStore SpecHttp SpecCaibx SpecMain SpecRun SpecAbort
  PfUtils PfBasic PfIO PfIndex PfFrame PfLocal PfCaibx PfSetup PfReadonly PfMemory.
Local Open Scope N_scope.

Section Safe.
Variables (E : env) (F : nat -> bytes) (X : nat -> Prop).
Definition inv (w : world) : Prop := (forall i, ~ X i -> w_files w i = F i) /\ ~ In IoZero (w_io w).
(** [m] does not abort, leaves the files outside [X] alone, and its result meets [K]. *)
Definition safe {A} (K : A -> Prop) (m : M A) : Prop := forall w, inv w -> wp m (fun a w' => K a /\ inv w') (fun bd _ => bd <> BAbort) w.
Definition any {A} (_ : A) : Prop := True.

Lemma safe_ret A (K : A -> Prop) a : K a -> safe K (ret a). Proof. intros H w Hw. apply wp_ret. auto. Qed.
Lemma safe_ub A (K : A -> Prop) : safe K ub. Proof. intros w Hw. cbn. discriminate. Qed.
Lemma safe_halt A (K : A -> Prop) : safe K halt. Proof. intros w Hw. cbn. discriminate. Qed.
Lemma safe_mono A (J K : A -> Prop) m : (forall a, J a -> K a) -> safe J m -> safe K m.
Proof. intros H Hm w Hw. eapply wp_mono; [apply Hm, Hw| |auto]. intros a w' (A1 & A2). auto. Qed.
Lemma safe_bind A B (J : A -> Prop) (K : B -> Prop) m k : safe J m -> (forall a, J a -> safe K (k a)) -> safe K (bind m k).
Proof. intros Hm Hk w Hw. apply wp_bind. eapply wp_mono; [apply Hm, Hw| |auto]. intros a w' (A1 & A2). now apply Hk. Qed.
Lemma safe_gives A (J K : A -> Prop) m : safe J m -> gives K m -> safe (fun a => J a /\ K a) m.
Proof. intros H G w Hw. eapply wp_mono; [apply (wp_gives _ _ _ _ _ _ G (H w Hw))| |auto]. intros a w' (A1 & A2 & A3). auto. Qed.
Lemma safe_fun A (K : A -> Prop) (m : world -> M A) : (forall w0, safe K (m w0)) -> safe K (fun w => m w w).
Proof. intros H w. apply H. Qed.

(** Programs without assertions *)
Definition noab {A} (m : M A) : Prop := forall w, fst (m w) <> Abort.
Lemma noab_ret A (a : A) : noab (ret a). Proof. intros w. discriminate. Qed.
Lemma noab_ub A : noab (@ub A). Proof. intros w. discriminate. Qed.
Lemma noab_halt A : noab (@halt A). Proof. intros w. discriminate. Qed.
Lemma noab_bind A B (m : M A) (k : A -> M B) : noab m -> (forall a, noab (k a)) -> noab (bind m k).
Proof. intros Hm Hk w. unfold bind. specialize (Hm w). destruct (m w) as [[a| | |] w']; cbn in *; [apply Hk|congruence..]. Qed.
Lemma noab_fun A (m : world -> M A) : (forall w0, noab (m w0)) -> noab (fun w => m w w).
Proof. intros H w. apply H. Qed.
Lemma noab_alloc : noab alloc. Proof. intros w. unfold alloc. destruct (w_alloc w); discriminate. Qed.
Lemma noab_trace t : noab (trace t). Proof. intros w. discriminate. Qed.
Lemma noab_fd_size ino : noab (fd_size E ino). Proof. intros w. unfold fd_size. destruct (e_kind E ino); discriminate. Qed.
Lemma read_assert : forall ev avail len got, fst (fst (read_loop avail len ev got)) <> IoAssert.
Proof.
  induction ev as [|e ev IH]; intros avail len got; cbn [read_loop]; destruct (len =? 0); try discriminate. destruct e; try discriminate; [|apply IH].
  cbv zeta. destruct (_ =? 0); [discriminate|apply IH].
Qed.
Lemma noab_pread ino len off : noab (preadall ino len off).
Proof.
  intros w. unfold preadall. destruct (len =? 0); [discriminate|]. destruct (_ <=? _); [destruct (w_io w); discriminate|].
  match goal with |- context [read_loop ?a ?l ?e ?g] => pose proof (read_assert e a l g) as H; destruct (read_loop a l e g) as [[[] got] ev'] end; cbn [fst] in *; congruence.
Qed.
Lemma noab_sha d : noab (chunk_calculate_id E d).
Proof.
  intros w. unfold chunk_calculate_id, sha_once. destruct (negb _); [discriminate|]. destruct (kc_send d (w_kev w)) as [[[|]|] kv]; try discriminate.
  destruct (kc_recv kv) as [[[]|] kv']; discriminate.
Qed.

Lemma inv_quiet (P : tev -> Prop) w w' : inv w -> quiet X P w w' -> inv w'.
Proof.
  intros (A & B) (Q1 & (pre & Q2) & _). split; [intros i Hi; rewrite Q1; auto|]. intros H. apply B. rewrite Q2. apply in_or_app. auto.
Qed.
Lemma safe_frame (P : tev -> Prop) A (m : M A) : frame X P m -> noab m -> safe any m.
Proof.
  intros Hf Hn w Hw. unfold wp. specialize (Hf w). specialize (Hn w). destruct (m w) as [[a| | |] w']; cbn [fst snd] in *; try congruence; try discriminate.
  split; [exact Logic.I|]. eapply inv_quiet; eauto.
Qed.
Lemma safe_wp (P : tev -> Prop) A (K : A -> Prop) m : frame X P m -> (forall w, inv w -> wp m (fun a _ => K a) (fun bd _ => bd <> BAbort) w) -> safe K m.
Proof.
  intros Hf H w Hw. apply (wp_frame X P); [exact Hf|]. eapply wp_mono; [apply H, Hw| |auto]. intros a w' Ka Hq. split; [exact Ka|]. eapply inv_quiet; eauto.
Qed.
Definition tt_ev (_ : tev) : Prop := True.
Lemma safe_alloc : safe any alloc. Proof. apply (safe_frame tt_ev); [apply frame_alloc|apply noab_alloc]. Qed.
Lemma safe_trace t : safe any (trace t). Proof. apply (safe_frame tt_ev); [now apply frame_trace|apply noab_trace]. Qed.
Lemma safe_pread ino len off : safe any (preadall ino len off). Proof. apply (safe_frame tt_ev); [apply frame_preadall|apply noab_pread]. Qed.
Lemma safe_sha d : safe any (chunk_calculate_id E d). Proof. apply (safe_frame tt_ev); [apply frame_chunk_id|apply noab_sha]. Qed.
Lemma pwrite_assert k : forall ev f off data wr, ~ In IoZero ev -> fst (fst (fst (pwrite_loop k f off data ev wr))) <> IoAssert.
Proof.
  induction ev as [|e ev IH]; intros f off data wr H; destruct data as [|x d]; cbn [pwrite_loop]; try discriminate.
  assert (H' : ~ In IoZero ev) by (intros C; apply H; now right). destruct e; try discriminate.
  - destruct (write_room _ _ _ _); [now apply IH|discriminate].
  - now apply IH.
  - destruct H. now left.
Qed.
Lemma safe_pwrite ino data off : X ino -> safe any (pwriteall E ino data off).
Proof.
  intros HX. apply (safe_wp tt_ev); [now apply frame_pwriteall|]. intros w (_ & Hz). unfold wp, pwriteall.
  pose proof (pwrite_assert (e_kind E ino) (w_io w) (w_files w ino) off data [] Hz) as H. destruct (pwrite_loop _ _ _ _ _ _) as [[[r f'] wr] ev'].
  cbn [fst] in H. destruct r; try discriminate; try exact Logic.I. congruence.
Qed.

(** ** Indices *)
Definition live (x : index) : Prop := ix_ptr x = PLive.
Lemma safe_assert b : b = true -> safe any (u_assert b). Proof. intros ->. now apply safe_ret. Qed.
Lemma safe_init x n : n <> 0 -> safe (fun r => fst r = true -> live (snd r)) (index_init x n).
Proof.
  intros Hn. unfold index_init. eapply safe_bind; [apply safe_assert; lia|]. intros _ _. eapply safe_bind; [apply safe_alloc|].
  intros [] _; apply safe_ret; [reflexivity|discriminate].
Qed.
Lemma safe_insert x o l i : live x -> l <> 0 -> safe (fun r => live (snd r)) (index_insert x o l i).
Proof.
  intros Hx Hl. unfold index_insert. eapply safe_bind; [apply safe_assert; lia|]. intros _ _. rewrite Hx. eapply (safe_bind _ _ any).
  { destruct (_ <=? _); [apply safe_alloc|now apply safe_ret]. }
  intros a _. destruct (negb a); [now apply safe_ret|]. destruct (_ <? _); [apply safe_ub|]. now apply safe_ret.
Qed.
Lemma safe_insert_index fl x o l i : live x -> l <> 0 -> safe (fun r => live (snd r)) (store_insert_index fl o l i x).
Proof.
  intros Hx Hl. unfold store_insert_index. eapply safe_bind; [now apply safe_insert|]. intros [[pos|] x'] Hx'; apply safe_ret; [|exact Hx'].
  unfold live in *. cbn [snd] in *. now rewrite or_flags_ptr.
Qed.
Lemma safe_query x id : safe (fun r => ix_ptr (snd r) = ix_ptr x) (index_query E x id).
Proof. unfold index_query. destruct (ix_ptr x) eqn:P, (ix_entries x); try apply safe_ub; apply safe_ret; cbn [snd]; destruct (ix_sorted x); auto. Qed.
Lemma safe_cleanup x : safe any (index_cleanup x).
Proof. unfold index_cleanup. destruct (ix_ptr x); [now apply safe_ret..|apply safe_ub]. Qed.
Lemma safe_get x pos : safe any (index_get x pos).
Proof. unfold index_get. destruct (nth_error _ _); [now apply safe_ret|apply safe_ub]. Qed.

(** Reading an index whose entries are [filled]; [ne]: the callback needs that. *)
Section Iter.
Context {A : Type}.
Variables (cb : N -> N -> bytes -> A -> M (bool * A)) (ino : nat) (p : params) (n : nat) (ne : bool) (J : A -> Prop).
Hypothesis (Hok : bytes_ok (F ino)) (Hlen : (64 + 40 * n <= length (F ino))%nat) (Hlim : blen (F ino) < OFF_LIMIT) (Hx : ~ X ino).
Hypothesis Hne : ne = true -> forall i, (i < n)%nat -> ent_start (F ino) i < ent_end (F ino) i /\ ent_end (F ino) i - ent_start (F ino) i < 2 ^ 32.
Hypothesis Hcb : forall o l i a, J a -> (ne = true -> l <> 0) -> safe (fun r => J (snd r)) (cb o l i a).
Lemma ent_len_filled i : ne = true -> (i < n)%nat -> ent_len (F ino) (ent_start (F ino) i) i = ent_end (F ino) i - ent_start (F ino) i /\
  skipped p (F ino) n (ent_start (F ino) i) i = false.
Proof.
  intros H Hi. destruct (Hne H i Hi) as (A1 & A2). assert (C := field_lt (F ino) (64 + 40 * i) Hok). fold (ent_end (F ino) i) in C.
  assert (L : ent_len (F ino) (ent_start (F ino) i) i = ent_end (F ino) i - ent_start (F ino) i).
  { unfold ent_len. change (2 ^ 64) with 18446744073709551616 in *. change (2 ^ 32) with 4294967296 in *.
    replace (ent_end (F ino) i + 18446744073709551616 - ent_start (F ino) i) with (ent_end (F ino) i - ent_start (F ino) i + 1 * 18446744073709551616) by lia.
    rewrite N.mod_add by lia. apply N.mod_small. lia. }
  split; [exact L|]. unfold skipped. rewrite L. replace (UINT32_MAX <? _) with false; [apply andb_false_r|]. unfold UINT32_MAX. change (2 ^ 32) with 4294967296 in A2. lia.
Qed.
Lemma safe_iterate a : J a -> safe (fun r => J (snd r)) (caibx_iterate_entries cb ino p (N.of_nat n) a).
Proof.
  intros Ha w Hw. eapply wp_mono; [apply (iterate_rule cb ino p (F ino) n Hok Hlen Hlim) with
    (Inv := fun i last a w' => inv w' /\ J a /\ (ne = true -> last = ent_start (F ino) i)) (Fail := fun a w' => inv w' /\ J a) (R := fun bd (_ : world) => bd <> BAbort)| |auto].
  - intros i last a0 w' (A1 & _). now apply A1.
  - intros i last a0 w' ev Hi (A1 & A2 & A3) (pre & Hs) _. assert (A1' : inv (set_io ev w')).
    { split; [apply A1|]. cbn. intros H. apply A1. rewrite Hs. apply in_or_app. auto. }
    assert (D : ne = true -> ent_len (F ino) last i mod 2 ^ 32 <> 0 /\ skipped p (F ino) n last i = false).
    { intros H. rewrite (A3 H). destruct (ent_len_filled i H Hi) as (L1 & L2). rewrite L1. split; [|exact L2]. destruct (Hne H i Hi). rewrite N.mod_small by lia. lia. }
    destruct (skipped p (F ino) n last i) eqn:Es.
    + split; [exact A1'|]. split; [exact A2|]. intros H. destruct (D H). discriminate.
    + eapply wp_mono; [apply Hcb; [exact A2|intros H; now apply D|exact A1']| |auto]. intros [ok a'] w'' (B1 & B2). cbn [fst snd] in *.
      destruct ok; [split; [exact B2|]; split; [exact B1|reflexivity]|auto].
  - intros i last a0 w' ev Hi (A1 & A2 & _) (pre & Hs) _. split; [|exact A2]. split; [apply A1|]. cbn. intros H. apply A1. rewrite Hs. apply in_or_app. auto.
  - discriminate.
  - split; [exact Hw|]. split; [exact Ha|reflexivity].
  - intros [ok a'] w' H. cbn [fst snd] in *. destruct ok; [destruct H as (last & H1 & H2 & _)|destruct H as (H1 & H2)]; auto.
Qed.
End Iter.

Lemma safe_load_header ino : ~ X ino -> bytes_ok (F ino) -> blen (F ino) < OFF_LIMIT ->
  safe (fun r => match r with Some (p, n) => valid_index (F ino) p n | None => True end) (caibx_load_header E ino).
Proof.
  intros Hx Hok Hlim. apply (safe_wp tt_ev); [apply frame_load_header|]. intros w (Hw & _).
  pose proof (load_header_spec E ino _ Hok w (Hw ino Hx) Hlim) as L. unfold wp. destruct (caibx_load_header E ino w) as [[[[cp n]|]| | |] w1]; try contradiction; try discriminate; try exact Logic.I. apply L.
Qed.

(** ** Local stores *)
Section Local.
Variables (cp : params) (D : N).
Hypothesis (Hd : disc_of cp D) (Hmax : p_max cp <= UINT32_MAX).
Definition sized (ino : nat) : Prop := ~ X ino /\ blen (F ino) < OFF_LIMIT /\ 5 * p_avg cp <= 6 * blen (F ino) /\ 12 * blen (F ino) < 2 ^ 64 /\ 0 < p_avg cp.
Lemma estimate_positive ino : sized ino -> chunk_estimate (blen (F ino)) (p_avg cp) <> 0.
Proof.
  intros (_ & _ & A & B & C). unfold chunk_estimate. change SIZE_MOD with (2 ^ 64). rewrite N.mod_small by exact B. rewrite N.div_div by lia.
  intros H. apply N.div_small_iff in H; lia.
Qed.
Definition lgood (ls : lstore) : Prop := ls_params ls = cp /\ sized (ls_ino ls).
Lemma safe_scan ls : lgood ls -> safe (fun r => ls_params (snd r) = cp /\ ls_ino (snd r) = ls_ino ls) (store_scan E ls).
Proof.
  intros (H1 & H2). apply (safe_wp tt_ev); [now apply frame_store_scan|]. intros w (Hw & _). destruct H2 as (B1 & B2 & B3).
  assert (Ef : w_files w (ls_ino ls) = F (ls_ino ls)) by now apply Hw.
  apply (wp_store_scan E ls D w); rewrite ?H1, ?Ef; auto.
  - intros w' _ _ Hz. destruct (estimate_positive (ls_ino ls)); [repeat split; tauto|exact Hz].
  - discriminate.
Qed.
Lemma safe_local_loop id : forall fuel ls out, lgood ls -> safe (fun r => lgood (snd r) /\ ls_ino (snd r) = ls_ino ls) (local_get_loop E fuel ls id out).
Proof.
  induction fuel as [|fuel IH]; intros ls out Hls; cbn [local_get_loop]; [apply safe_halt|].
  eapply safe_bind; [apply safe_query|]. intros [r x] _. destruct r as [pos|]; [|now apply safe_ret].
  eapply safe_bind; [apply safe_get|]. intros e _. destruct (_ <? _); [now apply safe_ret|]. eapply safe_bind; [apply safe_pread|]. intros [ok data] _.
  destruct (negb ok); [now apply safe_ret|]. destruct (negb _); [now apply safe_ret|]. eapply safe_bind; [apply safe_sha|]. intros actual _.
  destruct (beq _ _); [now apply safe_ret|]. eapply safe_bind; [apply safe_cleanup|]. intros x' _. eapply safe_bind; [now apply safe_scan|].
  intros [ok' ls'] (A & B). cbn [snd set_idx ls_ino] in A, B.
  assert (G : lgood ls') by (split; [exact A|rewrite B; apply Hls]). destruct (negb ok'); [now apply safe_ret|]. eapply safe_mono; [|now apply IH]. intros a (C1 & C2). split; [exact C1|congruence].
Qed.
Lemma safe_local_get ls id out : lgood ls -> safe (fun r => lgood (snd r) /\ ls_ino (snd r) = ls_ino ls) (store_local_get_chunk E ls id out).
Proof. intros H. apply (safe_fun _ _ (fun w1 => local_get_loop E (S (length (w_io w1))) ls id out)). intros w0. now apply safe_local_loop. Qed.

Definition side_ok (ip : option bytes) : Prop := match ip with None => True | Some q => forall s, e_open E q = Some s ->
  ~ X s /\ bytes_ok (F s) /\ blen (F s) < OFF_LIMIT /\ forall p n, valid_index (F s) p n -> filled (F s) (N.to_nat n) end.
Lemma safe_sideload ls q : side_ok (Some q) -> safe (fun r => ls_params (snd r) = ls_params ls /\ ls_ino (snd r) = ls_ino ls) (store_sideload_index E ls q).
Proof.
  intros H. unfold store_sideload_index. destruct (e_open E q) as [s|] eqn:Eo; [|now apply safe_ret]. destruct (H s Eo) as (H1 & H2 & H3 & H4).
  eapply safe_bind; [now apply safe_load_header|]. intros [[p n]|] Hv; [|now apply safe_ret]. destruct (negb _); [now apply safe_ret|].
  destruct (H4 p n Hv) as (H5 & H6). eapply safe_bind; [apply safe_init; lia|]. intros [ok x] Hx. cbn [fst snd] in Hx. destruct ok; cbn [negb]; [|now apply safe_ret].
  replace n with (N.of_nat (N.to_nat n)) by lia. eapply safe_bind.
  - apply (safe_iterate (store_insert_index 0) s p (N.to_nat n) true live); auto.
    + destruct Hv as (Hv & _). unfold blen in Hv. lia.
    + intros o l i a Ha Hl. apply safe_insert_index; auto.
  - intros [ok' x'] _. destruct (negb ok'); [|now apply safe_ret]. eapply safe_bind; [apply safe_cleanup|]. intros x'' _. now apply safe_ret.
Qed.
Lemma safe_local_new path ip : side_ok ip -> (forall s, e_open E path = Some s -> sized s) ->
  safe (fun r => match r with Some ls => lgood ls /\ e_open E path = Some (ls_ino ls) | None => True end) (store_local_new E path ip cp).
Proof.
  intros H1 H2. unfold store_local_new. eapply safe_bind; [apply safe_alloc|]. intros a _. destruct (negb a); [now apply safe_ret|].
  destruct (e_open E path) as [s|] eqn:Eo; [|now apply safe_ret]. specialize (H2 s eq_refl). cbv zeta.
  eapply (safe_bind _ _ (fun r => ls_params (snd r) = cp /\ ls_ino (snd r) = s)).
  - destruct ip as [q|]; [|now apply safe_ret]. now apply safe_sideload.
  - intros [loaded ls] (A & B). cbn [snd] in A, B. assert (G : lgood ls) by (split; [exact A|now rewrite B]).
    destruct loaded; [apply safe_ret; split; [exact G|congruence]|]. eapply safe_bind; [now apply safe_scan|]. intros [ok ls'] (C1 & C2). cbn [snd] in C1, C2.
    apply safe_ret. destruct ok; [|exact Logic.I]. split; [split; [exact C1|rewrite C2; apply G]|congruence].
Qed.
End Local.
End Safe.
