(** Interrupted runs do not repeat the work of those before them (C102). *)
From Verif Require Import Base Lib Utils Sha Chunker Caibx Index StoreLocal Target StoreHttp Chain Ui MainProg
  SpecBasic SpecEnv SpecChunker SpecStore SpecHttp SpecCaibx SpecMain SpecRun SpecOrder SpecStats SpecReport SpecSource SpecDiary SpecOutline SpecFrontier SpecRepeat
  PfUtils PfBasic PfRead PfIO PfCaibx PfFrame PfLocal PfTarget PfChain PfMain PfMain2 PfSetup PfRun PfReadonly PfTally PfDiary PfOutline PfPatch PfSync PfFrontier.
Local Open Scope N_scope.

(** ** Beginnings of what is to be done *)
Lemma begins_app_inv {A} : forall (d a c : list A), begins d (a ++ c) -> begins d a \/ exists t, d = a ++ t /\ begins t c.
Proof.
  induction d as [|x d IH]; intros a c (r & H); [left; now exists a|]. destruct a as [|y a]; [right; exists (x :: d); split; [reflexivity|now exists r]|].
  cbn in H. injection H as -> H. destruct (IH a c (ex_intro _ r H)) as [(r' & ->)|(t & -> & B)]; [left; now exists r'|right; now exists t].
Qed.
Lemma begins_todo f k i t : begins t (todo f k i) -> t = [] \/ t = [Ask (ent_id f i)] \/ t = todo f k i.
Proof.
  unfold todo. generalize (to_fetch f k i) (ent_id f i) (ent_start f i) (ent_size f i). intros [|] id s z; cbn [app]; intros (r & H).
  - destruct t as [|x [|y [|v t]]]; cbn in H; [now left|injection H as -> _; auto|injection H as -> -> _; auto|discriminate].
  - destruct t as [|x [|y t]]; cbn in H; [now left|injection H as -> _; auto|discriminate].
Qed.
Lemma steps_form f k d : forall n, (k <= n)%nat -> begins d (steps f k n) -> exists m, (k <= m <= n)%nat /\ (d = steps f k m \/ d = steps f k m ++ [Ask (ent_id f m)]).
Proof.
  induction n as [|n IH]; intros Hk Hd.
  - replace k with 0%nat in * by lia. rewrite steps_none in Hd. destruct Hd as (r & Hr). destruct d; [|discriminate]. exists 0%nat. split; [lia|]. left. now rewrite steps_none.
  - destruct (Nat.eq_dec k (S n)) as [->|].
    { rewrite steps_none in Hd. destruct Hd as (r & Hr). destruct d; [|discriminate]. exists (S n). split; [lia|]. left. now rewrite steps_none. }
    rewrite steps_next in Hd by lia. destruct (begins_app_inv _ _ _ Hd) as [H|(t & -> & H)].
    + destruct (IH ltac:(lia) H) as (m & A & B). exists m. split; [lia|exact B].
    + destruct (begins_todo _ _ _ _ H) as [->|[->| ->]].
      * exists n. split; [lia|]. left. now rewrite app_nil_r.
      * exists n. split; [lia|]. now right.
      * exists (S n). split; [lia|]. left. symmetry. apply steps_next. lia.
Qed.
Definition n_ask (l : list step) : nat := length (filter (fun s => match s with Ask _ => true | Write _ _ => false end) l).
Definition n_write (l : list step) : nat := length (filter (fun s => match s with Ask _ => false | Write _ _ => true end) l).
Lemma n_ask_app a c : n_ask (a ++ c) = (n_ask a + n_ask c)%nat. Proof. unfold n_ask. now rewrite filter_app, app_length. Qed.
Lemma n_write_app a c : n_write (a ++ c) = (n_write a + n_write c)%nat. Proof. unfold n_write. now rewrite filter_app, app_length. Qed.
Lemma one_ask id : n_ask [Ask id] = 1%nat. Proof. reflexivity. Qed.
Lemma one_write id : n_write [Ask id] = 0%nat. Proof. reflexivity. Qed.
Lemma asks_outline l : asks l = n_ask (map outline l). Proof. unfold asks, n_ask. induction l as [|[]]; cbn; congruence. Qed.
Lemma puts_outline l : puts l = n_write (map outline l). Proof. unfold puts, n_write. induction l as [|[]]; cbn; congruence. Qed.
Lemma count_steps f k m : (k <= m)%nat -> n_write (steps f k m) = (m - k)%nat /\ (n_ask (steps f k m) <= m - k)%nat.
Proof.
  induction m as [|m IH]; intros H; [replace k with 0%nat by lia; rewrite steps_none; cbn; lia|]. destruct (Nat.eq_dec k (S m)) as [->|]; [rewrite steps_none; cbn; lia|].
  destruct (IH ltac:(lia)) as (A & B). rewrite steps_next, n_write_app, n_ask_app, A by lia.
  assert (T : n_write (todo f k m) = 1%nat /\ (n_ask (todo f k m) <= 1)%nat) by (unfold todo; destruct (to_fetch f k m); split; reflexivity || apply le_n || apply Nat.le_0_l). lia.
Qed.
Lemma in_steps f k m i : (k <= i < m)%nat -> In (Write (ent_start f i) (ent_size f i)) (steps f k m).
Proof.
  intros H. unfold steps. apply in_flat_map. exists i. split; [apply in_seq; lia|]. apply in_or_app. right. now left.
Qed.
Lemma in_outline o n l : In (Write o n) (map outline l) -> exists d, In (Puts o d) l /\ blen d = n.
Proof. intros H. apply in_map_iff in H as ([id|o' d] & A & B); [discriminate|]. injection A as -> <-. eauto. Qed.

(** ** Places and contents *)
Lemma start_lt f n i j : well_formed f n -> (forall i, (i < n)%nat -> 0 < ent_size f i) -> (i < j)%nat -> (j <= n)%nat -> ent_start f i < ent_start f j.
Proof.
  intros Hwf Hpos Hij. induction j as [|j IH]; intros Hj; [lia|]. assert (ent_start f j < ent_start f (S j)).
  { specialize (Hpos j ltac:(lia)). unfold ent_size in Hpos. change (ent_start f (S j)) with (ent_end f j). lia. }
  destruct (Nat.eq_dec i j) as [->|]; [lia|]. specialize (IH ltac:(lia) ltac:(lia)). lia.
Qed.
Lemma start_inj f n i j : well_formed f n -> (forall i, (i < n)%nat -> 0 < ent_size f i) -> (i <= n)%nat -> (j <= n)%nat -> ent_start f i = ent_start f j -> i = j.
Proof.
  intros Hwf Hpos Hi Hj He. destruct (Nat.lt_trichotomy i j) as [H|[H|H]]; [|exact H|]; [pose proof (start_lt f n i j Hwf Hpos H Hj)|pose proof (start_lt f n j i Hwf Hpos H Hi)]; lia.
Qed.
Lemma start_le f n i j : well_formed f n -> (forall i, (i < n)%nat -> 0 < ent_size f i) -> (j <= n)%nat -> ent_start f i <= ent_start f j -> (i <= n)%nat -> (i <= j)%nat.
Proof. intros Hwf Hpos Hj He Hi. destruct (Nat.le_gt_cases i j) as [H|H]; [exact H|]. pose proof (start_lt f n j i Hwf Hpos H Hi). lia. Qed.
Lemma lay_holds : forall l g off, off <= blen g -> gapless off (places l) -> forall o d, In (Puts o d) l ->
  off <= o /\ slice (N.to_nat o) (length d) (lay g l) = d /\ o + blen d <= off + blen (data_of l).
Proof.
  induction l as [|[id|x e] l IH]; intros g off Hg Hl o d Hin; [destruct Hin| |].
  - destruct Hin as [Hin|Hin]; [discriminate|]. now apply IH.
  - change (places (Puts x e :: l)) with ((x, blen e) :: places l) in Hl. destruct Hl as (-> & Hl). change (data_of (Puts off e :: l)) with (e ++ data_of l).
    change (lay g (Puts off e :: l)) with (lay (fw g (N.to_nat off) e) l). assert (Hg1 : (N.to_nat off <= length g)%nat) by (unfold blen in Hg; lia).
    pose proof (PfMain.length_fw g (N.to_nat off) e Hg1) as (L & _). assert (Hg2 : off + blen e <= blen (fw g (N.to_nat off) e)) by (unfold blen; lia).
    replace (blen (e ++ data_of l)) with (blen e + blen (data_of l)) by (unfold blen; rewrite app_length; lia).
    destruct Hin as [Hin|Hin].
    + injection Hin as -> ->. split; [lia|]. split; [|lia]. destruct (lay_gapless l _ _ Hg2 Hl) as (_ & ->). rewrite slice_fw_before; [now apply slice_fw_at|unfold blen; lia|unfold blen; lia].
    + destruct (IH _ _ Hg2 Hl o d Hin) as (A & B & C). split; [lia|]. split; [exact B|lia].
Qed.
Lemma slice_fits (a n : nat) (g d : bytes) : slice a n g = d -> length d = n -> (0 < n)%nat -> (a + n <= length g)%nat.
Proof. intros <- H Hn. unfold slice in H. rewrite firstn_length, skipn_length in H. lia. Qed.

(** ** One run *)
Lemma attempt_step E argv w tino f n c : sane E argv w -> good_index E argv w -> hash_reliable E w -> error_free (w_io w) -> the_index E argv w f n ->
  e_open_rw E (cmd_target argv) = Some tino -> (forall i, (i < n)%nat -> 0 < ent_size f i <= BUF_SIZE) -> (c <= n)%nat -> prefix_present E f c (w_files w tino) ->
  exists tr c', run_trace w (snd (main E argv w)) tr /\ (c <= c' <= n)%nat /\ prefix_present E f c' (w_files (snd (main E argv w)) tino) /\
    (c + asks (diary tr) <= c' + 1)%nat /\ (c + puts (diary tr) <= c' + 1)%nat.
Proof.
  intros HS HG Hr He Hx Ho Hsz Hc Hp. set (g := w_files w tino) in *. set (w' := snd (main E argv w)).
  assert (Hpos : forall i, (i < n)%nat -> 0 < ent_size f i) by (intros i Hi; apply Hsz, Hi).
  assert (Hwf : well_formed f n) by (destruct Hx as (iino & p & Hi & <- & HV); replace n with (N.to_nat (N.of_nat n)) by lia; now apply (HG _ p _ Hi)).
  destruct (main_lay E true argv w tino f n HS HG (fun _ => Hr) Ho Hx Hpos) as (k & tr & A1 & A2 & A3 & A4 & A5). fold w' g in A2, A4, A5.
  exists tr. destruct (steps_form f k _ n A1 A3) as (m & M1 & M2). destruct (count_steps f k m ltac:(lia)) as (N1 & N2).
  assert (Hgl : gapless (ent_start f k) (places (diary tr))).
  { destruct (spots_steps f n k Hwf n ltac:(lia)) as (B1 & _). destruct A3 as (r & A3). rewrite A3 in B1. unfold spots in B1. rewrite flat_map_app in B1. fold (spots (map outline (diary tr))) in B1. rewrite spots_outline in B1.
    now apply gapless_begins in B1. }
  assert (Hk : ent_start f k <= blen g) by (destruct k as [|k]; [cbn; lia|]; destruct (A4 k ltac:(lia)) as (X & _); exact X).
  (* where the run began *)
  assert (Hck : (0 < puts (diary tr))%nat -> (c <= k)%nat).
  { intros Hput. destruct Hx as (iino & p & Hi & Hf & HV). rewrite <- Hf in Hp. 
    destruct (resume E argv w iino tino p (N.of_nat n) c HS HG Hr He Hi ltac:(rewrite Hf; exact HV) Ho ltac:(lia) Hp) as (tr2 & T2 & F2).
    assert (tr2 = tr) as -> by (unfold run_trace in *; apply (app_inv_tail (w_trace w)); fold w' in T2; congruence).
    assert (Hm : (k < m)%nat). { rewrite puts_outline in Hput. destruct M2 as [E2|E2]; rewrite E2 in Hput; [|rewrite n_write_app, one_write in Hput]; lia. }
    assert (Hin : In (Write (ent_start f k) (ent_size f k)) (map outline (diary tr))).
    { destruct M2 as [E2|E2]; rewrite E2; [|apply in_or_app; left]; apply in_steps; lia. }
    apply in_outline in Hin as (d & Hin & _). apply diary_in in Hin as (i & Hin). rewrite Forall_forall in F2. specialize (F2 _ Hin). cbv beta iota in F2. rewrite Hf in F2.
    apply (start_le f n c k Hwf Hpos A1); [apply F2|exact Hc]. }
  (* what was written is right *)
  assert (Hdata : forall o d, In (Puts o d) (diary tr) -> exists j, (j < n)%nat /\ o = ent_start f j /\ blen d = ent_size f j /\ e_H E d = ent_id f j).
  { intros o d Hin. apply diary_in in Hin as (i & Hin). destruct (main_any E true argv w HS HG ltac:(auto)) as (dd & [(_ & wk & (kc & ->) & B)|(wk & su & w1 & HR)]).
    - exfalso. destruct B as (_ & _ & _ & _ & tr0 & T0 & F0). assert (tr0 = tr) as -> by (unfold run_trace in *; apply (app_inv_tail (w_trace w)); fold w' in T0; rewrite <- A2; symmetry; exact T0).
      rewrite Forall_forall in F0. exact (F0 _ Hin).
    - destruct (ran_bytes _ _ _ _ _ _ _ _ _ HR) as (tr2 & T2 & P2 & _). assert (tr2 = tr) as -> by (unfold run_trace in *; apply (app_inv_tail (w_trace w)); fold w' in T2; congruence).
      destruct (P2 _ _ _ Hin) as (_ & j & J1 & J2 & J3 & J4). pose proof (ran_ready _ _ _ _ _ _ _ _ _ HR) as R2. destruct Hx as (iino & p & Hi & Hf & HV).
      assert (su_index su = iino) as Ei by (pose proof (rd_index _ _ _ _ _ _ _ R2); congruence). pose proof (rd_valid _ _ _ _ _ _ _ R2) as HV'. rewrite Ei, Hf in *.
      assert (su_n su = N.of_nat n) as En by (destruct HV as (V1 & _); destruct HV' as (V2 & _); lia). rewrite En, Nat2N.id in J1.
      exists j. split; [exact J1|]. split; [exact J2|]. split; [unfold blen; lia|]. apply J4, Hpos, J1. }
  assert (Hold : forall g2 j, (j < k)%nat -> (exists d, g2 = fw g (N.to_nat (ent_start f k)) d) -> ent_size f j <= BUF_SIZE /\ ent_end f j <= blen g2 /\ e_H E (ent_slice f j g2) = ent_id f j).
  { intros g2 j Hj (d & ->). split; [apply Hsz; lia|]. destruct (A4 j Hj) as (X1 & X2). pose proof (PfMain.length_fw g (N.to_nat (ent_start f k)) d ltac:(unfold blen in Hk; lia)) as (_ & L). split; [unfold blen in *; lia|].
    unfold ent_slice. rewrite slice_fw_before; [exact (X2 (Hpos j ltac:(lia)))|unfold blen in Hk; lia|].
    assert (ent_end f j <= ent_start f k).
    { change (ent_end f j) with (ent_start f (S j)). destruct (Nat.eq_dec (S j) k) as [->|]; [lia|]. pose proof (start_lt f n (S j) k Hwf Hpos ltac:(lia) A1). lia. }
    specialize (Hpos j ltac:(lia)). unfold ent_size in *. lia. }
  assert (Hnew : forall l j g2, (k <= j < n)%nat -> (exists d, In (Puts (ent_start f j) d) l /\ In (Puts (ent_start f j) d) (diary tr) /\ slice (N.to_nat (ent_start f j)) (length d) g2 = d) -> 
     ent_size f j <= BUF_SIZE /\ ent_end f j <= blen g2 /\ e_H E (ent_slice f j g2) = ent_id f j).
  { intros l j g2 Hj (d & _ & D2 & D3). split; [apply Hsz; lia|]. destruct (Hdata _ _ D2) as (j' & J1 & J2 & J3 & J4). apply (start_inj f n) in J2; [|assumption|assumption|lia|lia]. subst j'.
    specialize (Hpos j ltac:(lia)). assert (Hd : length d = N.to_nat (ent_size f j)) by (unfold blen in J3; lia). rewrite Hd in D3.
    pose proof (slice_fits _ _ _ _ D3 Hd ltac:(lia)) as L. split; [unfold ent_size in *; unfold blen; lia|]. unfold ent_slice. now rewrite D3. }
  destruct A5 as [A5|(l0 & o & d & q & El & A5)].
  - (* everything noted was written *)
    assert (PP : prefix_present E f m (w_files w' tino)).
    { intros j Hj. destruct (Nat.lt_ge_cases j k) as [Hjk|Hjk].
      - apply Hold; [exact Hjk|]. destruct (lay_gapless _ _ _ Hk Hgl) as (_ & X). rewrite A5, X. eauto.
      - assert (Hin : In (Write (ent_start f j) (ent_size f j)) (map outline (diary tr))) by (destruct M2 as [E2|E2]; rewrite E2; [|apply in_or_app; left]; apply in_steps; lia).
        apply in_outline in Hin as (d & Hin & _). apply (Hnew (diary tr)); [lia|]. exists d. split; [exact Hin|]. split; [exact Hin|]. rewrite A5. apply (lay_holds _ _ _ Hk Hgl _ _ Hin). }
    destruct (Nat.eq_dec (puts (diary tr)) 0) as [E0|E0].
    + assert (m = k) as ->. { rewrite puts_outline in E0. destruct M2 as [E2|E2]; rewrite E2 in E0; [|rewrite n_write_app, one_write in E0]; lia. }
      assert (asks (diary tr) <= 1)%nat. { rewrite asks_outline. destruct M2 as [E2|E2]; rewrite E2; [|rewrite n_ask_app, one_ask]; lia. }
      exists (Nat.max c k). split; [exact A2|]. split; [lia|]. split; [|lia].
      destruct (Nat.max_spec c k) as [(_ & ->)|(_ & ->)]; [exact PP|].
      assert (Eg : w_files w' tino = g).
      { rewrite A5. destruct (lay_gapless _ _ _ Hk Hgl) as (_ & ->). assert (data_of (diary tr) = []) as ->; [|reflexivity]. clear -E0. unfold puts in E0. induction (diary tr) as [|[id|o d] l IH]; [reflexivity|apply IH, E0|discriminate]. }
      now rewrite Eg.
    + specialize (Hck ltac:(lia)). exists m. split; [exact A2|]. split; [lia|]. split; [exact PP|]. rewrite asks_outline, puts_outline.
      destruct M2 as [E2|E2]; rewrite E2; [lia|]. rewrite n_ask_app, n_write_app, one_ask, one_write. lia.
  - (* the last of it is cut short *)
    assert (Elast : map outline (diary tr) = steps f k m).
    { destruct M2 as [E2|E2]; [exact E2|]. exfalso. rewrite El, map_app in E2. cbn [map] in E2. apply app_inj_tail in E2 as (_ & E2). discriminate. }
    assert (Hmk : (k < m)%nat).
    { destruct (Nat.eq_dec k m) as [<-|]; [|lia]. rewrite steps_none, El, map_app in Elast. now apply app_eq_nil in Elast as (_ & X). }
    destruct m as [|m]; [lia|]. rewrite steps_next, El, map_app in Elast by lia.
    assert (Eo : o = ent_start f m).
    { unfold todo in Elast. rewrite app_assoc in Elast. cbn [map] in Elast. apply app_inj_tail in Elast as (_ & X). now injection X. }
    subst o. assert (Hgl0 := Hgl). rewrite El in Hgl0. unfold places in Hgl0. rewrite flat_map_app in Hgl0. fold (places l0) in Hgl0. apply gapless_app in Hgl0 as (G1 & G2 & _).
    destruct (lay_gapless _ _ _ Hk G1) as (_ & X0).
    assert (PP : prefix_present E f m (w_files w' tino)).
    { intros j Hj. rewrite A5. destruct (Nat.lt_ge_cases j k) as [Hjk|Hjk].
      - apply Hold; [exact Hjk|]. rewrite X0. exists (data_of l0 ++ firstn q d). rewrite <- fw_app. f_equal. unfold blen in G2. lia.
      - assert (Hin : In (Write (ent_start f j) (ent_size f j)) (map outline (diary tr))).
        { rewrite El, map_app, Elast. apply in_or_app. left. apply in_steps. lia. }
        apply in_outline in Hin as (e & Hin & He2). assert (Hin2 := Hin). rewrite El in Hin2. apply in_app_or in Hin2 as [Hin2|[Hin2|[]]].
        + apply (Hnew l0); [lia|]. exists e. split; [exact Hin2|]. split; [exact Hin|]. destruct (lay_holds _ _ _ Hk G1 _ _ Hin2) as (Y1 & Y2 & Y3).
          rewrite slice_fw_before; [exact Y2| |].
          * rewrite X0. pose proof (PfMain.length_fw g (N.to_nat (ent_start f k)) (data_of l0) ltac:(unfold blen in Hk; lia)) as (L & _). unfold blen in G2. lia.
          * unfold blen in *. lia.
        + exfalso. injection Hin2 as Hs _. pose proof (start_lt f n j m Hwf Hpos ltac:(lia) ltac:(lia)). lia. }
    assert (Hp1 : puts (diary tr) = (S m - k)%nat /\ (asks (diary tr) <= S m - k)%nat).
    { rewrite puts_outline, asks_outline. destruct M2 as [E2|E2]; rewrite E2; [split; [exact N1|exact N2]|]. exfalso. rewrite El, map_app in E2. cbn [map] in E2. apply app_inj_tail in E2 as (_ & E2). discriminate. }
    destruct Hp1 as (Hp1 & Hp2). specialize (Hck ltac:(lia)). exists m. split; [exact A2|]. split; [lia|]. split; [exact PP|]. lia.
Qed.

(** ** Several runs *)
Lemma continued_step H f n : (forall i, (i < n)%nat -> 0 < ent_size f i <= BUF_SIZE) -> forall l g g' c, continued H f n g l g' -> (c <= n)%nat ->
  (forall E, e_H E = H -> prefix_present E f c g) ->
  exists trs c', Forall2 (fun a tr => run_trace (at_world a) (at_end a) tr) l trs /\ (c <= c' <= n)%nat /\ (forall E, e_H E = H -> prefix_present E f c' g') /\
    (c + total asks (map diary trs) <= c' + length l)%nat /\ (c + total puts (map diary trs) <= c' + length l)%nat.
Proof.
  intros Hsz. induction l as [|a l IH]; intros g g' c Hl Hc Hp.
  - cbn in Hl. subst g'. exists [], c. split; [constructor|]. split; [lia|]. split; [exact Hp|]. cbn. lia.
  - destruct Hl as (H0 & H1 & H2 & H3 & H4 & H5 & H6 & H7 & H8).
    destruct (attempt_step _ _ _ _ f n c H1 H2 H3 H4 H5 H6 Hsz Hc ltac:(rewrite H7; now apply Hp)) as (tr & c1 & B1 & B2 & B3 & B4 & B5).
    assert (Hp1 : forall E, e_H E = H -> prefix_present E f c1 (w_files (at_end a) (at_target a))).
    { intros E HE j Hj. destruct (B3 j Hj) as (X1 & X2 & X3). split; [exact X1|]. split; [exact X2|]. rewrite HE, <- H0. exact X3. }
    destruct (IH _ _ c1 H8 ltac:(lia) Hp1) as (trs & c2 & C1 & C2 & C3 & C4 & C5).
    exists (tr :: trs), c2. split; [constructor; assumption|]. split; [lia|]. split; [exact C3|]. cbn [map total fold_right length] in *. unfold total in *. lia.
Qed.
Lemma continued_total H f n l g g' : (forall i, (i < n)%nat -> 0 < ent_size f i <= BUF_SIZE) -> continued H f n g l g' ->
  exists trs, Forall2 (fun a tr => run_trace (at_world a) (at_end a) tr) l trs /\
    (total asks (map diary trs) <= n + length l)%nat /\ (total puts (map diary trs) <= n + length l)%nat.
Proof.
  intros Hsz Hl. destruct (continued_step H f n Hsz l g g' 0%nat Hl ltac:(lia) ltac:(intros E _ j Hj; lia)) as (trs & c' & A & B & _ & C & D). exists trs. split; [exact A|]. lia.
Qed.
