(** Proofs about power failures (C106). *)
From Verif Require Import Base Lib Utils Sha Chunker Caibx Index StoreLocal Target StoreHttp Chain Ui MainProg SpecBasic SpecEnv SpecChunker SpecStore SpecHttp SpecCaibx SpecMain SpecRun PfUtils PfBasic PfIO PfRead PfKeyspec PfIndex PfFrame PfLocal PfHttp PfHttp2 PfCaibx PfTarget PfChain PfMain PfMain2 PfSetup PfRun PfReadonly Patchdd SpecPatch SpecFrontier SpecRepeat SpecPatch2 SpecPower PfSync PfPatch.
Local Open Scope N_scope.

(** ** patchdd *)
Lemma survives_mixed s d dst : (length s <= length d)%nat -> forall tr g g', survives dst tr g g' ->
  Forall (fun ev => match ev with TWrite i o x => i = dst /\ block_write s d o x | _ => True end) tr -> mixed s d g -> mixed s d g'.
Proof.
  intros L tr g g' H. induction H as [g|o x tr g g' H IH|o x tr g g' N H IH|ev tr g g' N H IH]; intros F M; [exact M| | |]; apply Forall_cons_iff in F as (F1 & F2); auto.
  apply IH; [exact F2|]. destruct F1 as (_ & j & p & _ & F1 & F3 & _). destruct M as (M1 & M2). unfold blen in *. split.
  - rewrite length_file_write, M1. lia.
  - intros i. unfold byte_of. rewrite nth_error_file_write, M1. destruct (Nat.ltb_spec i (N.to_nat o)).
    + replace (i <? length d)%nat with true by (symmetry; apply Nat.ltb_lt; lia). apply M2.
    + destruct (Nat.ltb_spec i (N.to_nat o + length x)); [|apply M2]. right. split; [lia|].
      specialize (F3 (i - N.to_nat o)%nat ltac:(lia)). unfold byte_of in F3. rewrite F3. f_equal. lia.
Qed.
Lemma survives_nil ino g g' : survives ino [] g g' -> g' = g. Proof. intros H. now inversion H. Qed.
Lemma patchdd_leaves E argv w src dst g : src_of E argv = Some src -> dst_of E argv = Some dst ->
  leaves dst w (snd (patchdd_main E argv w)) g -> mixed (w_files w src) (w_files w dst) g.
Proof.
  intros H1 H2 [->|(tr & T & S)]; destruct (patchdd_stop E argv w) as (_ & _ & M); destruct (M _ _ H1 H2) as (M1 & tr' & T' & M2); [exact M1|].
  assert (tr' = tr) as -> by (apply (app_inv_tail (w_trace w)); unfold run_trace in *; congruence).
  destruct (N.lt_ge_cases (blen (w_files w dst)) (blen (w_files w src))) as [Hlt|Hge].
  - assert (tr = []) as ->.
    { pose proof (wp_patchdd E argv w) as W. unfold wp in W. unfold run_trace in T. destruct (patchdd_main E argv w) as [[c| | |] w']; cbn [snd] in *.
      - destruct W as (_ & _ & B). rewrite H1, H2 in B. destruct B as (_ & _ & B & _). destruct (B Hlt) as (_ & _ & B3). rewrite B3 in T. symmetry in T. now apply (app_inv_tail (w_trace w) tr []) in T.
      - destruct W as (_ & _ & s & d & E1 & E2 & L & _). rewrite H1 in E1. rewrite H2 in E2. injection E1 as <-. injection E2 as <-. lia.
      - destruct W as (X & _). contradiction.
      - destruct W as (_ & _ & s & d & E1 & E2 & L & _). rewrite H1 in E1. rewrite H2 in E2. injection E1 as <-. injection E2 as <-. lia. }
    apply survives_nil in S as ->. apply mixed_refl.
  - eapply survives_mixed; [|exact S| |apply mixed_refl]; [unfold blen in Hge; lia|]. apply Forall_rev. exact M2.
Qed.
Lemma mixed_trans s d g g' : mixed s d g -> mixed s g g' -> mixed s d g'.
Proof.
  intros (A1 & A2) (B1 & B2). split; [congruence|]. intros i. destruct (B2 i) as [B|B]; [rewrite B; apply A2|now right].
Qed.
Lemma patch_cuts_mixed s : forall l g g', patch_cuts s g l g' -> mixed s g g'.
Proof.
  induction l as [|a l IH]; intros g g' H; [cbn in H; subst; apply mixed_refl|]. destruct H as ((src & S1 & S2) & D1 & D2 & g1 & H1 & H2).
  apply IH in H2. eapply mixed_trans; [|exact H2]. pose proof (patchdd_leaves _ _ _ _ _ _ S1 D1 H1) as M. rewrite S2, D2 in M. exact M.
Qed.
Lemma patch_cuts_done E argv w w' src dst d l : src_of E argv = Some src -> dst_of E argv = Some dst -> let s := w_files w src in
  patch_cuts s d l (w_files w dst) -> patchdd_main E argv w = (Ok 0, w') ->
  w_files w' dst = patched s d /\ forall g, leaves dst w w' g -> g = patched s d.
Proof.
  intros H1 H2 s HC HR. apply patch_cuts_mixed in HC. destruct (patchdd_success E argv w w' HR) as (src' & dst' & B1 & B2 & B3 & B4 & _ & tr & B5 & B6).
  rewrite H1 in B1. rewrite H2 in B2. injection B1 as <-. injection B2 as <-. fold s in B3, B4, B6.
  assert (EP : patched s (w_files w dst) = patched s d). { apply mixed_patched; [|exact HC]. destruct HC as (L & _). unfold blen in *. lia. }
  rewrite EP in *. split; [exact B4|]. intros g [->|(tr' & T & S)]; [exact B4|]. apply B6.
  assert (tr' = tr) as -> by (apply (app_inv_tail (w_trace w)); unfold run_trace in *; congruence). exact S.
Qed.

(** ** csn and casync: every transfer to the target is part of what was given to target_write *)
Definition covered (tr : list tev) : Prop := forall i o x, In (TWrite i o x) tr -> exists o' D, In (TPut i o' D) tr /\ wr_ok o' D (o, x).
Definition cov (w w' : world) : Prop := exists tr, w_trace w' = tr ++ w_trace w /\ covered tr.
Definition no_tw (ev : tev) : Prop := match ev with TWrite _ _ _ => False | _ => True end.
Lemma cov_trans a b c : cov a b -> cov b c -> cov a c.
Proof.
  intros (t1 & A1 & A2) (t2 & B1 & B2). exists (t2 ++ t1). split; [now rewrite B1, A1, app_assoc|]. intros i o x H. apply in_app_or in H as [H|H].
  - destruct (B2 _ _ _ H) as (o' & D & X & Y). exists o', D. split; [apply in_or_app; now left|exact Y].
  - destruct (A2 _ _ _ H) as (o' & D & X & Y). exists o', D. split; [apply in_or_app; now right|exact Y].
Qed.
Lemma cov_none w w' tr : w_trace w' = tr ++ w_trace w -> Forall no_tw tr -> cov w w'.
Proof. intros H F. exists tr. split; [exact H|]. intros i o x Hin. rewrite Forall_forall in F. destruct (F _ Hin). Qed.
Lemma cov_refl w : cov w w. Proof. apply (cov_none w w []); [reflexivity|constructor]. Qed.
Definition covs {A} (m : M A) : Prop := forall w, cov w (snd (m w)).
Lemma covs_frame A (S : nat -> Prop) (m : M A) : frame S no_tw m -> covs m.
Proof. intros F w. destruct (F w) as (_ & _ & _ & _ & tr & A1 & A2). eapply cov_none; eauto. Qed.
Lemma covs_ret A (a : A) : covs (ret a). Proof. intros w. apply cov_refl. Qed.
Lemma covs_bind A B (m : M A) (k : A -> M B) : covs m -> (forall a, covs (k a)) -> covs (bind m k).
Proof.
  intros Hm Hk w. unfold bind. specialize (Hm w). destruct (m w) as [[a| | |] w1]; cbn [snd] in *; auto. eapply cov_trans; [exact Hm|apply Hk].
Qed.
Section Cov.
Variable E : env.
Notation fr := (frame none no_tw).
Lemma covs_write t data len off id : covs (target_write E t data len off id).
Proof.
  unfold target_write. destruct (blen data <? len); [intros w; apply cov_refl|]. set (D := firstn (N.to_nat len) data).
  assert (P : forall w, wp (trace (TPut (t_ino t) off D) ;;; pwriteall E (t_ino t) D off) (fun _ w' => cov w w') (fun _ w' => cov w w') w).
  { intros w. apply wp_bind, wp_trace.
    assert (G : forall w' wr, w_trace w' = trace_writes (t_ino t) wr (TPut (t_ino t) off D :: w_trace w) -> Forall (wr_ok off D) wr -> cov w w').
    { intros w' wr T F. exists (map (fun p => TWrite (t_ino t) (fst p) (snd p)) wr ++ [TPut (t_ino t) off D]). split; [rewrite T; unfold trace_writes; now rewrite <- app_assoc|].
      intros i o x Hin. apply in_app_or in Hin as [Hin|[Hin|[]]]; [|discriminate]. apply in_map_iff in Hin as ([o1 x1] & Eq & Hin). injection Eq as <- <- <-.
      exists off, D. split; [apply in_or_app; right; now left|]. rewrite Forall_forall in F. exact (F _ Hin). }
    apply wp_pwriteall; intros; eapply G; try eassumption; reflexivity. }
  intros w. specialize (P w). unfold wp in P. unfold bind in *. destruct (trace (TPut (t_ino t) off D) w) as [[u| | |] w1]; cbn [snd] in *; auto.
  destruct (pwriteall E (t_ino t) D off w1) as [[ok| | |] w2]; cbn [snd] in *; auto. eapply cov_trans; [exact P|].
  assert (K : covs (bind (target_add_chunk E t len off id) (fun t0 => ret (true, t0)))) by (apply covs_bind; [apply (covs_frame _ none), frame_add_chunk|intros; apply covs_ret]).
  destruct (negb ok); [apply cov_refl|]. apply (K w2).
Qed.
Lemma covs_progress n st : covs (entry_progress E n st).
Proof. unfold entry_progress. destruct (e_interactive E); [|apply covs_ret]. apply covs_bind; [apply (covs_frame _ none), frame_trace; exact I|intros; apply covs_ret]. Qed.
Lemma covs_ub A : covs (@ub A). Proof. intros w. apply cov_refl. Qed.
Lemma covs_fetch n o l id st : covs (entry_fetch_write E n o l id st).
Proof.
  unfold entry_fetch_write. apply covs_bind.
  - destruct (match m_last_id st with Some _ => _ | None => false end); [apply covs_ret|]. destruct (m_store st) as [chain|]; [|apply covs_ub].
    apply covs_bind; [apply (covs_frame _ none), frame_chain_get; intros; exact I|]. intros [[[r buf] ch] t]. destruct (match r with Some _ => _ | None => false end); apply covs_ret.
  - intros [ok st1]. destruct (negb ok); [apply covs_ret|]. apply covs_bind; [apply covs_write|]. intros [ok2 t]. destruct (negb ok2); [apply covs_ret|apply covs_progress].
Qed.
Lemma covs_entry n o l id st : covs (entry_cb E n o l id st).
Proof.
  unfold entry_cb. destruct (m_resuming st); [|apply covs_fetch]. destruct (_ <? _); [apply covs_ret|].
  apply covs_bind; [apply (covs_frame _ none), frame_check_chunk|]. intros [[r buf] t]. destruct r as [[|]|]; [apply covs_progress|apply covs_fetch|apply covs_fetch].
Qed.
Lemma covs_iterate (cb : N -> N -> bytes -> mstate -> M (bool * mstate)) ino p nn : (forall o l i a, covs (cb o l i a)) ->
  forall k i last a, covs (iterate_loop cb ino p nn k i last a).
Proof.
  intros Hcb. induction k as [|k IH]; intros i last a; cbn [iterate_loop]; [apply covs_ret|].
  apply covs_bind; [apply (covs_frame _ none), frame_readall|]. intros [ok d]. destruct (negb ok); [apply covs_ret|]. cbv zeta.
  destruct (_ && _); [apply IH|]. apply covs_bind; [apply Hcb|]. intros [ok2 a2]. destruct (negb ok2); [apply covs_ret|apply IH].
Qed.
Lemma covs_run su : covs (run_sync E su).
Proof.
  unfold run_sync. apply covs_bind; [apply covs_iterate; intros; apply covs_entry|]. intros [ok st]. destruct (negb ok); [apply covs_ret|].
  destruct (m_store st); [|apply covs_ub]. apply covs_bind; [apply (covs_frame _ none), frame_chain_free|intros; apply covs_ret].
Qed.
Lemma main_cov argv w : cov w (snd (main E argv w)).
Proof.
  apply (wp_final _ (main E argv) (cov w)). unfold main. cbv zeta. apply wp_bind.
  assert (Q0 : forall wk w1, begun w wk -> quiet0 wk w1 -> cov w w1).
  { intros wk w1 (k & ->) (_ & _ & _ & _ & tr & A & B). eapply cov_none; [exact A|]. eapply Forall_impl; [|exact B]. intros [] H; cbn in *; tauto. }
  eapply wp_mono; [apply init_quiet| |].
  2:{ intros bd w1 (wk & A & B). eauto. }
  intros [su| |c] w1 (wk & A & B & C); [|apply wp_ret; eauto|apply wp_ret; eauto].
  pose proof (cov_trans _ _ _ (Q0 _ _ A B) (covs_run su w1)) as K. unfold wp. destruct (run_sync E su w1) as [[c| | |] w2]; exact K.
Qed.
End Cov.

(** What the events of a run can leave, if all that is given to target_write is the image's *)
Lemma blended_refl image g : blended image g g. Proof. intros k. now left. Qed.
Lemma blended_grows image g g' : blended image g g' -> (length g <= length g')%nat.
Proof.
  intros H. destruct (Nat.le_gt_cases (length g) (length g')) as [L|L]; [exact L|exfalso]. assert (Hn : nth_error g' (length g') = None) by (apply nth_error_None; lia).
  assert (Hs : nth_error g (length g') <> None) by (apply nth_error_Some; lia).
  destruct (H (length g')) as [A|(A & [B|(B & _)])]; unfold byte_of in *; [congruence| |lia]. rewrite Hn in B. symmetry in B. apply nth_error_None in B. lia.
Qed.
Lemma blended_trans image a b c : blended image a b -> blended image b c -> blended image a c.
Proof.
  intros A B k. pose proof (blended_grows _ _ _ A) as L. destruct (B k) as [X|(K & [X|(Y & X)])].
  - rewrite X. apply A.
  - right. split; [exact K|now left].
  - right. split; [exact K|]. right. split; [lia|exact X].
Qed.
Lemma blended_write image g o x : (o + length x <= length image)%nat -> (forall i, (i < length x)%nat -> byte_of x i = byte_of image (o + i)) ->
  blended image g (file_write g o x).
Proof.
  intros L H k. unfold byte_of in *. rewrite nth_error_file_write. destruct (Nat.ltb_spec k o).
  - destruct (Nat.ltb_spec k (length g)); [now left|]. right. split; [lia|]. right. auto.
  - destruct (Nat.ltb_spec k (o + length x)); [|now left]. right. split; [lia|]. left. rewrite H by lia. f_equal. lia.
Qed.
Definition of_image (image : bytes) (ino : nat) (ev : tev) : Prop :=
  match ev with TWrite i o x => i = ino -> (N.to_nat o + length x <= length image)%nat /\ forall q, (q < length x)%nat -> byte_of x q = byte_of image (N.to_nat o + q) | _ => True end.
Lemma survives_blended image ino tr g g' : survives ino tr g g' -> Forall (of_image image ino) tr -> blended image g g'.
Proof.
  intros H. induction H as [g|o x tr g g' H IH|o x tr g g' N H IH|ev tr g g' N H IH]; intros F; [apply blended_refl| | |]; apply Forall_cons_iff in F as (F1 & F2); auto.
  destruct (F1 eq_refl) as (A & B). eapply blended_trans; [apply blended_write; eassumption|auto].
Qed.
Lemma part_of_image image a D o x : (forall q, (q < length D)%nat -> nth_error image (N.to_nat a + q) = nth_error D q) -> wr_ok a D (o, x) ->
  (N.to_nat o + length x <= length image)%nat /\ forall q, (q < length x)%nat -> byte_of x q = byte_of image (N.to_nat o + q).
Proof.
  intros HD (A & B & C & Eq). cbn [fst snd] in *. unfold blen in B.
  assert (G : forall q, (q < length x)%nat -> byte_of x q = byte_of image (N.to_nat o + q)).
  { intros q Hq. unfold byte_of. rewrite Eq, nth_error_firstn. destruct (Nat.ltb_spec q (length x)); [|lia]. rewrite nth_error_skipn, <- HD by lia. f_equal. lia. }
  split; [|exact G]. assert (0 < length x)%nat by (destruct x; [contradiction|cbn; lia]).
  specialize (G (length x - 1)%nat ltac:(lia)). unfold byte_of in G.
  assert (nth_error x (length x - 1) <> None) by (apply nth_error_Some; lia). assert (N.to_nat o + (length x - 1) < length image)%nat by (apply nth_error_Some; congruence). lia.
Qed.

Lemma sync_leaves E argv w pieces tino : sane E argv w -> described E argv w pieces -> e_open_rw E (cmd_target argv) = Some tino ->
  let w' := snd (main E argv w) in
  exists tr, run_trace w w' tr /\ ((forall g, leaves tino w w' g -> blended (concat pieces) (w_files w tino) g) \/
    collision E pieces (fun y => exists o D, In (TPut tino o D) tr /\ end_piece y D)).
Proof.
  intros HS HD Ht w'. destruct (main_cov E argv w) as (tr & T & HCov). fold w' in T. exists tr. split; [exact T|].
  destruct (always_image E argv w pieces tino HS HD Ht) as (tr1 & T1 & AI). fold w' in T1, AI.
  assert (tr1 = tr) as -> by (apply (app_inv_tail (w_trace w)); unfold run_trace in *; congruence).
  destruct AI as [AI|C]; [|now right].
  assert (G : Forall (of_image (concat pieces) tino) tr \/ collision E pieces (fun y => exists o D, In (TPut tino o D) tr /\ end_piece y D)).
  { assert (Setup : forall wk, started w wk -> quiet0 wk w' -> Forall (of_image (concat pieces) tino) tr).
    { intros wk (kc & ->) (_ & _ & _ & _ & tr2 & A & B). assert (tr2 = tr) as -> by (apply (app_inv_tail (w_trace w)); cbn [w_trace set_kcapi] in A; congruence).
      eapply Forall_impl; [|exact B]. intros [] H; cbn in *; tauto. }
    destruct (main_split E argv w HS) as [(_ & wk & A & B)|(ino & tino' & p & n & Ho & Ht' & HV)]; [left; eauto|].
    assert (tino' = tino) as -> by congruence.
    destruct (described_good E argv w pieces ino p n (fun y => exists o D, In (TPut tino o D) tr /\ end_piece y D) HD Ho HV) as [HG|HC]; [|now right].
    destruct (main_any E false argv w HS HG ltac:(discriminate)) as (d & [(_ & wk & A & B)|(wk & su & w1 & HR)]); [left; eauto|]. fold w' in HR.
    destruct (ran_bytes _ _ _ _ _ _ _ _ _ HR) as (tr2 & T2 & P & _). pose proof (ran_ready _ _ _ _ _ _ _ _ _ HR) as R2.
    assert (tr2 = tr) as -> by (apply (app_inv_tail (w_trace w)); unfold run_trace in *; congruence).
    assert (su_index su = ino) as Ei by (pose proof (rd_index _ _ _ _ _ _ _ R2); congruence).
    pose proof (rd_valid _ _ _ _ _ _ _ R2) as HV'. rewrite Ei in HV'. pose proof (HD _ _ _ Ho HV') as HD1. rewrite Ei in P.
    destruct (forall_in_or _ (collision E pieces (fun y => exists o D, In (TPut tino o D) tr /\ end_piece y D))
       (fun ev => match ev with TPut i o D => i = tino -> exists j, nth_error pieces j = Some D /\ o = ent_start (w_files w ino) j | _ => True end) tr) as [G|G]; [| |now right].
    { intros [] Hin; auto. destruct (P _ _ _ Hin) as (Ej & j & Hj & Hoff & HL & HH).
      destruct (data_piece E _ _ pieces HD1 j _ Hj HL HH) as [(Q & Q1 & Q2)|C].
      - left. intros _. exists j. subst. auto.
      - right. eapply collision_mono; [|exact C]. cbv beta. intros y Hy. pose proof (rd_target _ _ _ _ _ _ _ R2). assert (t_ino (su_target su) = tino) as Et by congruence. rewrite Ej, Et in Hin. eauto. }
    left. apply Forall_forall. intros ev Hin. destruct ev; cbn; auto. intros ->. destruct (HCov _ _ _ Hin) as (a & D & Y & Z). destruct (G _ Y eq_refl) as (j & J1 & J2).
    apply (part_of_image (concat pieces) a D); [|exact Z]. intros q Hq. rewrite J2. exact (nth_image E _ _ pieces HD1 j D q J1 Hq). }
  destruct G as [G|C]; [left|now right]. intros g [->|(tr2 & T2 & S)].
  - intros k. destruct (AI k) as [X|(X & Y)]; [now left|]. right. split; [exact X|now left].
  - assert (tr2 = tr) as -> by (apply (app_inv_tail (w_trace w)); unfold run_trace in *; congruence). eapply survives_blended; [exact S|]. now apply Forall_rev.
Qed.
Lemma sync_cuts_blended pieces : forall l g g', sync_cuts pieces g l g' -> blended (concat pieces) g g' \/ deceived pieces l.
Proof.
  induction l as [|a l IH]; intros g g' H; [cbn in H; subst; left; apply blended_refl|]. destruct H as (H1 & H2 & H3 & H4 & g1 & H5 & H6).
  destruct (sync_leaves _ _ _ _ _ H1 H2 H3) as (tr & T & [B|C]).
  2:{ right. exists a, tr. split; [now left|]. split; [exact T|exact C]. }
  destruct (IH _ _ H6) as [B2|(a' & tr' & X & Y)]; [|right; exists a', tr'; split; [now right|exact Y]].
  left. eapply blended_trans; [|exact B2]. rewrite <- H4. apply B, H5.
Qed.
Lemma blended_behind image g g' : blended image g g' -> skipn (length image) g' = skipn (length image) g.
Proof.
  intros H. apply nth_error_ext. intros k. rewrite !nth_error_skipn. destruct (H (length image + k)%nat) as [X|(X & _)]; [exact X|lia].
Qed.
Lemma deceived_app pieces l1 l2 : deceived pieces l2 -> deceived pieces (l1 ++ l2).
Proof. intros (a & tr & A & B). exists a, tr. split; [apply in_or_app; now right|exact B]. Qed.
Lemma sync_cuts_done pieces l d E argv w w' tino : sync_cuts pieces d l (w_files w tino) -> sane E argv w -> described E argv w pieces ->
  e_open_rw E (cmd_target argv) = Some tino -> main E argv w = (Ok 0, w') -> let image := concat pieces in
  w_files w' tino = image ++ skipn (length image) d \/ deceived pieces (l ++ [mkAttempt E argv w tino]) \/
  collision E pieces (fun y => exists f n i, (exists iino p, e_open E (cmd_index argv) = Some iino /\ w_files w iino = f /\ valid_index f p n) /\
    (i < N.to_nat n)%nat /\ end_piece y (ent_slice f i (w_files w' tino))).
Proof.
  intros HC HS HD Ht HR image. destruct (sync_cuts_blended pieces l _ _ HC) as [B|(a & tr & X & Y)].
  2:{ right; left. exists a, tr. split; [apply in_or_app; now left|exact Y]. }
  destruct (sync_leaves E argv w pieces tino HS HD Ht) as (tr & T & [B2|C]).
  2:{ right; left. apply deceived_app. exists (mkAttempt E argv w tino), tr. split; [now left|]. split; [exact T|exact C]. }
  rewrite HR in B2. cbn [snd] in B2. specialize (B2 _ (or_introl eq_refl)).
  destruct (success_image E argv w w' pieces HS HD HR) as (iino & tino' & p & n & A1 & A2 & A3 & A4). rewrite Ht in A2. injection A2 as <-. fold image in A4, B, B2.
  destruct A4 as [A4|(x & y & C1 & C2 & C3 & C4)].
  - left. rewrite <- (firstn_skipn (length image) (w_files w' tino)), A4. f_equal. rewrite (blended_behind _ _ _ B2). exact (blended_behind _ _ _ B).
  - right; right. exists x, y. split; [exact C1|]. split; [exact C2|]. split; [exact C3|]. destruct C4 as [C4|(i & C4 & C5)]; [now left|right]. exists (w_files w iino), n, i. split; [exists iino, p; auto|auto].
Qed.

(** A power cut that keeps the transfers chosen by [keep] *)
Fixpoint chosen (ino : nat) (keep : list bool) (tr : list tev) (g : bytes) : bytes :=
  match tr with
  | [] => g
  | TWrite i o x :: tr' => if Nat.eqb i ino then chosen ino (tl keep) tr' (if hd false keep then file_write g (N.to_nat o) x else g) else chosen ino keep tr' g
  | _ :: tr' => chosen ino keep tr' g
  end.
Lemma survives_chosen ino : forall tr keep g, ~ In (TSync ino) tr -> survives ino tr g (chosen ino keep tr g).
Proof.
  induction tr as [|ev tr IH]; intros keep g H; [constructor|]. assert (H' : ~ In (TSync ino) tr) by (intros X; apply H; now right).
  destruct ev; cbn [chosen]; try (apply sv_other; [discriminate|auto]). destruct (Nat.eqb_spec ino0 ino) as [->|Hne]; [|apply sv_other; [congruence|auto]].
  destruct (hd false keep); [apply sv_keep|apply sv_lose]; auto.
Qed.
