(** The stores of a command line can be opened (C86). *)
From Coq Require Import Sorting.Permutation.
From Verif Require Import Base Lib Utils Sha Encrypt Chunker Caibx Index StoreLocal Target StoreHttp Chain Ui MainProg
  SpecBasic SpecCrypto SpecEnv SpecChunker SpecStore SpecHttp SpecCaibx SpecMain SpecRun SpecLive SpecAvail SpecProgress SpecDelta SpecSupply SpecResume SpecUpdate SpecMend
  PfUtils PfBasic PfIO PfRead PfKeyspec PfIndex PfFrame PfLocal PfLocal2 PfHttp PfCaibx PfCaibx2 PfTarget PfChain PfMain PfMain2 PfSetup PfRun PfSync PfLive PfLive2 PfAvail PfDelta PfSupply.
Local Open Scope N_scope.

Lemma settled_transfers ev : error_free ev -> settled ev = transfers ev.
Proof. unfold error_free. induction 1 as [|[] ev H _ IH]; cbn; try contradiction; congruence. Qed.

(** [w'] comes after [w]: nothing but the schedule has changed, at most [k] transfers were used. *)
Definition later (k : nat) (w w' : world) : Prop :=
  (forall i, w_files w' i = w_files w i) /\ error_free (w_io w') /\ w_alloc w' = [] /\ w_kcapi w' = false /\
  (transfers (w_io w) <= transfers (w_io w') + k)%nat.
Definition ripe (w : world) : Prop := files_ok w /\ error_free (w_io w) /\ w_alloc w = [] /\ w_kcapi w = false.
Lemma later_ripe k w w' : ripe w -> later k w w' -> ripe w'.
Proof. intros (A & _) (B & C & D & F & _). split; [intros i; rewrite B; apply A|auto]. Qed.

Section Local.
Variable (E : env).
Lemma local_opens path ip cp w : ripe w ->
  wp (store_local_new E path ip cp) (fun r _ => r <> None) (fun b _ => b = BHalt) w ->
  (105 + match ip with Some i => size_at E w i * 40 | None => 0 end + size_at E w path <= transfers (w_io w))%nat ->
  exists ls w', store_local_new E path ip cp w = (Ok (Some ls), w') /\ later (105 + match ip with Some i => size_at E w i * 40 | None => 0 end + size_at E w path) w w'.
Proof.
  intros (Hf & He & Ha & Hk) G T. set (Z := fun i => blen (w_files w i)).
  assert (I0 : inv Z false w) by (split; [intros i; unfold Z; lia|auto]).
  pose proof (cost_local_new E Z false path ip cp w I0) as C. pose proof (frame_local_new none store_ev E) as F. unfold wp in G.
  assert (Sz : forall p, path_size E Z p = size_at E w p). { intros q. unfold path_size, size_at, Z, blen. destruct (e_open E q); [apply Nat2N.id|reflexivity]. }
  assert (Cq : new_local_cost E Z path ip = (105 + match ip with Some i => size_at E w i * 40 | None => 0 end + size_at E w path)%nat).
  { unfold new_local_cost. rewrite Sz. destruct ip; [rewrite Sz|]; lia. }
  rewrite Cq in C. clear Cq. set (B := (105 + _ + _)%nat) in *.
  assert (Fr : quiet0 w (snd (store_local_new E path ip cp w))) by (apply F; intros; exact Logic.I).
  destruct (store_local_new E path ip cp w) as [[[ls|]| | |] w'] eqn:En; cbn [snd] in Fr.
  - exists ls, w'. split; [reflexivity|]. destruct C as (_ & I1 & C1 & _). pose proof Fr as (_ & F2 & F3 & _).
    assert (He' : error_free (w_io w')) by (eapply error_free_suffix; eauto). rewrite !settled_transfers in C1 by assumption.
    split; [apply quiet0_files, Fr|]. split; [exact He'|]. split; [rewrite Ha in F3; destruct (w_alloc w') as [|x l]; [reflexivity|elim (F3 x); now left]|].
    split; [now apply I1|exact C1].
  - now elim G.
  - discriminate.
  - discriminate.
  - destruct C as [(C1 & C2)|(C1 & _)]; [|discriminate]. rewrite settled_transfers in C2 by assumption. lia.
Qed.

Lemma scan_opens path cp D ino w : ripe w -> disc_of cp D -> 0 < p_avg cp -> p_max cp <= UINT32_MAX -> e_open E path = Some ino -> e_kind E ino <> KOther ->
  5 * p_avg cp <= 6 * blen (w_files w ino) -> blen (w_files w ino) < 2 ^ 60 ->
  wp (store_local_new E path None cp) (fun r _ => r <> None) (fun b _ => b = BHalt) w.
Proof.
  intros (Hf & He & Ha & Hk) Hd Hp Hmax Ho Hkind S1 S2. unfold store_local_new. apply wp_bind, wp_alloc_why; [|intros al _ X; rewrite Ha in X; destruct X].
  intros al Hal. cbn [negb]. rewrite Ho. apply wp_bind, wp_ret, wp_bind. apply wp_store_scan with (D := D); cbn [ls_params ls_ino]; auto.
  - apply Hf.
  - intros x w1 _ _ _ _ _. apply wp_ret. discriminate.
  - intros x w1 _ [(X & _)|(_ & [X|X])]; [contradiction| |].
    + cbn [set_alloc w_alloc] in X. rewrite Ha in Hal. apply Hal in X. destruct X.
    + cbn [set_alloc w_io] in X. unfold error_free in He. rewrite Forall_forall in He. elim (He _ X).
  - intros w1 _ _ X. cbn [set_alloc w_files] in X. apply estimate_zero in X; [lia|exact Hp|]. change (2 ^ 60) with 1152921504606846976 in S2. change (2 ^ 64) with 18446744073709551616. lia.
Qed.

Lemma index_opens path ip cp ino iino p n w : ripe w -> e_open E path = Some ino -> e_open E ip = Some iino -> e_kind E iino <> KOther ->
  valid_index (w_files w iino) p n -> p_min p = p_min cp -> p_avg p = p_avg cp -> p_max p = p_max cp ->
  usual_chunks (w_files w iino) (N.to_nat n) -> 0 < n ->
  wp (store_local_new E path (Some ip) cp) (fun r _ => r <> None) (fun b _ => b = BHalt) w.
Proof.
  intros (Hf & He & Ha & Hk) Ho Hoi Hkind V P1 P2 P3 Hu Hn. assert (Ha0 : ~ In false (w_alloc w)) by (rewrite Ha; intros []). set (h := w_files w iino) in *. set (m := N.to_nat n) in *.
  unfold store_local_new. apply wp_bind, wp_alloc_why. 2:{ intros al _ Hal. elim (Ha0 Hal). } intros al Hal. cbn [negb]. rewrite Ho.
  apply wp_bind. unfold store_sideload_index. rewrite Hoi. apply wp_bind. destruct (Hf iino) as (Hok & Hlim). fold h in Hok, Hlim.
  pose proof (load_header_spec E iino h Hok (set_alloc al w) eq_refl Hlim) as L. unfold wp at 1.
  destruct (caibx_load_header E iino (set_alloc al w)) as [[[[cp' n']|]| | |] w3]; try contradiction; [| |reflexivity].
  2:{ destruct L as (_ & [L|[L|L]]); [elim (L He)|contradiction|elim (L _ _ V)]. }
  destruct L as ((ev & -> & Hs & _) & V' & _). destruct (valid_index_unique h p n cp' n' V V') as (<- & <-). cbn [ls_params ls_idx].
  rewrite P1, P2, P3, !N.eqb_refl. cbn [negb andb].
  apply wp_bind, wp_index_init; [lia| |]. 2:{ intros al' _ Hal' _. elim Ha0. apply Hal. exact Hal'. }
  intros al' Ha' _ Hx0. cbn [negb]. apply wp_bind.
  assert (Lm : (64 + 40 * m <= length h)%nat) by (eapply valid_length; eauto).
  replace n with (N.of_nat m) at 1 by (unfold m; lia).
  assert (Hsz : forall j, (j < m)%nat -> ent_len h (ent_start h j) j = ent_size h j).
  { intros j Hj. destruct (Hu j Hj) as (U1 & _). unfold ent_len, ent_size in *. assert (ent_end h j < 2 ^ 64) by (apply field_lt; auto). lia. }
  eapply wp_mono; [apply (iterate_rule (store_insert_index 0) iino p h m Hok Lm Hlim) with
     (Inv := fun (j : nat) (last : N) (x : index) (w' : world) => w_files w' iino = h /\ error_free (w_io w') /\ ~ In false (w_alloc w') /\ (j <= m)%nat /\
               last = ent_start h j /\ idx_ok x /\ length (ix_entries x) = j)
     (Fail := fun (x : index) (w' : world) => False) (R := fun (b : bad) (w' : world) => b = BHalt)| |auto].
  - intros j last x w' (A & _). exact A.
  - intros j last x w' ev' Hj (I1 & I2 & I3 & I4 & -> & I6 & I7) Hs' _. pose proof (Hu j Hj) as (U1 & U2). unfold BUF_SIZE in U2.
    assert (Sk : skipped p h m (ent_start h j) j = false). { unfold skipped. rewrite Hsz by exact Hj. assert (UINT32_MAX <? ent_size h j = false) as -> by (unfold UINT32_MAX; lia). now rewrite !andb_false_r. }
    rewrite Sk, Hsz by exact Hj. replace (ent_size h j mod 2 ^ 32) with (ent_size h j) by (symmetry; apply N.mod_small; change (2 ^ 32) with 4294967296; lia).
    unfold store_insert_index. apply wp_bind, wp_index_insert; auto.
    + unfold n_entries. rewrite I7. unfold blen, OFF_LIMIT in Hlim. change (2 ^ 64) with 18446744073709551616. lia.
    + unfold ent_size in *. lia.
    + intros al2 sp Ha2 _ Hx'. apply wp_ret. cbn [fst snd]. rewrite or_flags_last0. split; [exact I1|]. split; [eapply error_free_suffix; eauto|].
      split; [intros X; apply I3, Ha2, X|]. split; [lia|]. split; [reflexivity|]. split; [exact Hx'|]. cbn [ix_entries]. rewrite app_length. cbn [length]. lia.
    + intros al2 _ Hf2 _. elim (I3 Hf2).
  - intros j last x w' ev' _ (_ & I2 & _) _ Hne. elim (Hne I2).
  - auto.
  - split; [reflexivity|]. split; [eapply error_free_suffix; eauto|]. split; [intros X; apply Ha0, Hal, Ha', X|]. split; [lia|]. split; [reflexivity|]. split; [exact Hx0|reflexivity].
  - intros [ok x] w' X. cbn [fst snd] in X. destruct ok; [|contradiction]. cbn [negb]. apply wp_ret, wp_ret. discriminate.
Qed.

(** ** One store argument, all of them *)
Section Args.
Variables (tp : bytes) (cp : params) (n : N).
Hypothesis (Hh : e_http_ok E = true) (Hn : 0 < n) (Hp : 0 < p_avg cp) (Hmax : p_max cp <= UINT32_MAX).
Definition roomy (bd : building) : Prop := 1 <= b_space bd /\ N.of_nat (length (b_chain bd)) <= b_space bd.

Lemma seeded_files w w' arg id : (forall i, w_files w' i = w_files w i) -> seeded E w tp cp arg id -> seeded E w' tp cp arg id.
Proof.
  intros Hf H. destruct H as [path ino D c X1 X2 X3 X4 X5|path ip ino iino p m i X1 X2 X3 X4 X5 X6 X7 X8 X9 X10 X11].
  - rewrite <- Hf in X5. eapply seed_scan; eauto.
  - rewrite <- (Hf iino), <- (Hf ino) in *. eapply seed_index; eauto.
Qed.
Lemma usable_files w w' arg : (forall i, w_files w' i = w_files w i) -> usable E w tp cp arg -> usable E w' tp cp arg.
Proof.
  intros Hf [X|path ino X1 X2 X3 X4 X5|path ip id X1 X2]; [now apply us_remote|eapply us_scan; eauto; now rewrite Hf|eapply us_index; eauto; eapply seeded_files; eauto].
Qed.
Lemma openable_files w w' arg : (forall i, w_files w' i = w_files w i) -> openable E w tp cp arg -> openable E w' tp cp arg.
Proof.
  intros Hf [X|(path & ip & ino & iino & m & [X1 X2 X3 X4 X5 X6 X7 X8 X9 X10 X11 X12])]; [left; eapply usable_files; eauto|right]. exists path, ip, ino, iino, m.
  split; rewrite ?(Hf ino), ?(Hf iino); assumption.
Qed.
Lemma open_cost_files w w' arg : (forall i, w_files w' i = w_files w i) -> open_cost E w' tp arg = open_cost E w tp arg.
Proof.
  intros Hf. assert (Z : forall q, size_at E w' q = size_at E w q) by (intros q; unfold size_at; destruct (e_open E q); [now rewrite Hf|reflexivity]).
  unfold open_cost. destruct (classify_arg tp arg) as [|u|path [ip|]]; rewrite ?Z; reflexivity.
Qed.

Lemma chain_append bd s t w : w_alloc w = [] -> roomy bd ->
  exists bd', bind (store_chain_append (b_space bd) (b_chain bd) s) (fun '(ok, space, chain) => ret (if (ok : bool) then Some (mkB space chain t) else None)) w = (Ok (Some bd'), w) /\ roomy bd'.
Proof.
  intros Ha (Hs & Hl). unfold store_chain_append, bind at 1, bind at 1, roomy. destruct (b_space bd <=? N.of_nat (length (b_chain bd))) eqn:Ef.
  - rewrite (alloc_nil w Ha). cbn [negb]. replace (b_space bd * 2 <=? N.of_nat (length (b_chain bd))) with false by lia. eexists. split; [reflexivity|]. cbn. rewrite app_length. cbn [length]. lia.
  - cbn [negb ret]. rewrite Ef. eexists. split; [reflexivity|]. cbn. rewrite app_length. cbn [length]. lia.
Qed.

Lemma append_usable bd arg w : ripe w -> roomy bd -> openable E w tp cp arg -> (forall path, local_path tp arg path -> exists D, disc_of cp D) -> (open_cost E w tp arg <= transfers (w_io w))%nat ->
  exists bd' w', append_store_from_arg E tp cp n bd arg w = (Ok (Some bd'), w') /\ roomy bd' /\ later (open_cost E w tp arg) w w'.
Proof.
  intros Hr Hb Hu Hd Ht. pose proof Hr as (Hf & He & Ha & Hk).
  assert (Loc : forall path ip, classify_arg tp arg = ArgLocal path ip -> wp (store_local_new E path ip cp) (fun r _ => r <> None) (fun b _ => b = BHalt) w ->
     exists bd' w', append_store_from_arg E tp cp n bd arg w = (Ok (Some bd'), w') /\ roomy bd' /\ later (open_cost E w tp arg) w w').
  { intros path ip Hc G. assert (Oc : open_cost E w tp arg = (105 + match ip with Some i => size_at E w i * 40 | None => 0 end + size_at E w path)%nat) by (unfold open_cost; rewrite Hc; destruct ip; lia).
    rewrite Oc in *. destruct (local_opens path ip cp w Hr G Ht) as (ls & w' & X1 & X2). unfold append_store_from_arg. rewrite Hc. unfold bind at 1, bind at 1. rewrite X1. cbn [ret].
    destruct (chain_append bd (SLocal ls) (b_target bd) w' (proj1 (proj2 (proj2 X2))) Hb) as (bd' & Y1 & Y2). exists bd', w'. auto. }
  destruct Hu as [Hu|(path & ip & ino & iino & m & [X1 X2 X3 X4 X5 (q & X6 & X7 & X8 & X9) X10 X11 X12 X13 X14 X15])]; [|apply (Loc path (Some ip) X1); eapply index_opens; eauto].
  destruct Hu as [Hrm|path ino X1 X2 X3 X4 X5|path ip id X1 X2].
  - destruct (append_remote E tp cp n bd arg w Ha Hh Hn (proj1 Hb) (proj2 Hb) Hrm) as (bd' & A & B1 & B2). exists bd', w. split; [exact A|]. split; [split; assumption|].
    split; [auto|]. split; [exact He|]. split; [exact Ha|]. split; [exact Hk|lia].
  - destruct (Hd path) as (D & HD); [unfold local_path; eauto|]. apply (Loc path None X1). eapply scan_opens; eauto.
  - apply (Loc path (Some ip) X1). inversion X2 as [path' ino D c Y1|path' ip' ino iino p m i Y1 Y2 Y3 Y4 Y5 Y6 Y7 Y8 Y9 Y10 Y11]; [congruence|].
    assert (path' = path /\ ip' = ip) as (-> & ->) by (rewrite X1 in Y1; injection Y1; auto). eapply index_opens; eauto. lia.
Qed.

Lemma appends_usable : forall args bd w, ripe w -> roomy bd -> Forall (openable E w tp cp) args -> (forall arg path, In arg args -> local_path tp arg path -> exists D, disc_of cp D) ->
  (list_sum (map (open_cost E w tp) args) <= transfers (w_io w))%nat ->
  exists bd' w', append_stores E tp cp n bd args w = (Ok (Some bd'), w') /\ later (list_sum (map (open_cost E w tp) args)) w w'.
Proof.
  induction args as [|a args IH]; intros bd w Hr Hb Hu Hd Ht; cbn [append_stores].
  - exists bd, w. split; [reflexivity|]. pose proof Hr as (Hf & He & Ha & Hk). split; [auto|]. split; [exact He|]. split; [exact Ha|]. split; [exact Hk|lia].
  - cbn [map] in *. set (c := open_cost E w tp a) in *. cbn [list_sum fold_right] in *. fold (list_sum (map (open_cost E w tp) args)) in *.
    destruct (append_usable bd a w Hr Hb (Forall_inv Hu)) as (bd1 & w1 & A & B & L); [intros path Hl; apply (Hd a path); [now left|exact Hl]|fold c; lia|]. fold c in L. unfold bind. rewrite A.
    pose proof L as (L1 & L2 & L3 & L4 & L5).
    assert (Em : map (open_cost E w1 tp) args = map (open_cost E w tp) args) by (apply map_ext; intros x; now apply open_cost_files).
    destruct (IH bd1 w1) as (bd2 & w2 & A2 & M1 & M2 & M3 & M4 & M5).
    + eapply later_ripe; eauto.
    + exact B.
    + eapply Forall_impl; [|exact (Forall_inv_tail Hu)]. intros x. now apply openable_files.
    + intros arg path Hi Hl. apply (Hd arg path); [now right|exact Hl].
    + rewrite Em. lia.
    + rewrite Em in M5. exists bd2, w2. split; [exact A2|]. split; [intros i; now rewrite M1|]. split; [exact M2|]. split; [exact M3|]. split; [exact M4|lia].
Qed.
End Args.
End Local.

Lemma init_openable E argv w ino p n tino : sane E argv w -> is_csn argv = true -> (4 <= length argv)%nat -> e_getenv E (bs "CSN_KCAPI_DRIVER") = None ->
  ripe w -> (start_cost E argv w <= transfers (w_io w))%nat -> e_open E (cmd_index argv) = Some ino -> valid_index (w_files w ino) p n -> e_kind E ino <> KOther ->
  e_open_rw E (cmd_target argv) = Some tino -> e_http_ok E = true -> 0 < n -> Forall (openable E w (cmd_target argv) p) (cmd_stores argv) ->
  exists su w1, init E argv w = (Ok (InitOk su), w1) /\ w_kcapi w1 = false /\ (transfers (w_io w) <= transfers (w_io w1) + start_cost E argv w)%nat.
Proof.
  intros HS Hc Hl Hg Hr Ht Ho Hv Hk Hrw Hh Hn Hu. pose proof Hr as (Hf & He & Ha & Hkc).
  assert (Hd : forall arg path, In arg (cmd_stores argv) -> local_path (cmd_target argv) arg path -> exists D, disc_of p D) by (intros arg path X Y; exact (sa_disc _ _ _ HS ino p n arg path Ho Hv X Y)).
  assert (Hpa : 0 < p_avg p /\ p_max p <= UINT32_MAX). { destruct Hv as (_ & _ & _ & _ & _ & _ & _ & V1 & V2 & _). unfold UINT32_MAX. change (2 ^ 32) with 4294967296 in V2. lia. }
  clear HS. unfold start_cost in *. unfold init, cmd_index, cmd_target, cmd_stores in *. rewrite Hc in *. unfold is_csn in Hc. rewrite Hc.
  destruct argv as [|a0 [|a1 [|a2 [|a3 args]]]]; try (cbn in Hl; lia). unfold csn. rewrite Hg. cbn [nth] in *. unfold bind at 1. cbn [ret negb]. rewrite Ho.
  destruct (Hf ino) as (F1 & F2). destruct (load_header_total E ino w p n F1 F2 Hv Hk He ltac:(lia)) as (w1 & L1 & ev & -> & Hs & Hc1). unfold bind at 1. rewrite L1.
  assert (Ha1 : w_alloc (set_io ev w) = []) by exact Ha. unfold bind at 1, target_new. unfold bind at 1. rewrite (alloc_nil _ Ha1). cbn [negb]. rewrite Hrw. cbn [ret].
  unfold bind at 1, store_chain_new. unfold bind at 1. rewrite (alloc_nil _ Ha1). cbn [negb]. unfold bind at 1. rewrite (alloc_nil _ Ha1). cbn [negb ret]. unfold bind at 1.
  cbn [skipn] in *.
  assert (Hr1 : ripe (set_io ev w)) by (split; [exact Hf|]; split; [cbn; eapply error_free_suffix; eauto|]; split; [exact Ha|exact Hkc]).
  match goal with |- context [append_stores E a2 p n ?bd ?l _] => destruct (appends_usable E a2 p n Hh Hn (proj1 Hpa) (proj2 Hpa) l bd (set_io ev w) Hr1) as (bd' & w2 & A & M1 & M2 & M3 & M4 & M5) end.
  - split; [cbn [b_space]; lia|cbn [b_space b_chain length]; lia].
  - eapply Forall_impl; [|exact Hu]. intros x. now apply openable_files.
  - exact Hd.
  - change (map (open_cost E (set_io ev w) a2)) with (map (open_cost E w a2)). cbn [w_io set_io]. lia.
  - rewrite A. eexists _, _. split; [reflexivity|]. split; [exact M4|]. change (map (open_cost E (set_io ev w) a2)) with (map (open_cost E w a2)) in M5. cbn [w_io set_io] in M5. lia.
Qed.

Lemma init_usable E argv w ino p n tino : sane E argv w -> is_csn argv = true -> (4 <= length argv)%nat -> e_getenv E (bs "CSN_KCAPI_DRIVER") = None ->
  ripe w -> (start_cost E argv w <= transfers (w_io w))%nat -> e_open E (cmd_index argv) = Some ino -> valid_index (w_files w ino) p n -> e_kind E ino <> KOther ->
  e_open_rw E (cmd_target argv) = Some tino -> e_http_ok E = true -> 0 < n -> Forall (usable E w (cmd_target argv) p) (cmd_stores argv) ->
  exists su w1, init E argv w = (Ok (InitOk su), w1) /\ w_kcapi w1 = false /\ (transfers (w_io w) <= transfers (w_io w1) + start_cost E argv w)%nat.
Proof. intros HS Hc Hl Hg Hr Ht Ho Hv Hk Hrw Hh Hn Hu. apply (init_openable E argv w ino p n tino); auto. eapply Forall_impl; [|exact Hu]. intros x X. now left. Qed.

Lemma supplied_end_to_end E argv w pieces ino p n tino : sane E argv w -> described E argv w pieces -> pieces <> [] -> (forall P, In P pieces -> 0 < blen P <= BUF_SIZE) ->
  is_csn argv = true -> (4 <= length argv)%nat -> e_getenv E (bs "CSN_KCAPI_DRIVER") = None -> w_kcapi w = false -> e_http_ok E = true ->
  e_open E (cmd_index argv) = Some ino -> valid_index (w_files w ino) p n -> e_kind E ino <> KOther ->
  e_open_rw E (cmd_target argv) = Some tino -> has_room E w tino (blen (concat pieces)) ->
  Forall (usable E w (cmd_target argv) p) (cmd_stores argv) ->
  (forall P, In P pieces -> exists arg, In arg (cmd_stores argv) /\ supplies E w (cmd_target argv) p pieces arg P) ->
  w_alloc w = [] -> error_free (w_io w) -> (start_cost E argv w + enough (length pieces) (length (cmd_stores argv)) <= transfers (w_io w))%nat ->
  fst (main E argv w) = Ok 0 \/ exists tr, run_trace w (snd (main E argv w)) tr /\ false_answer E pieces tr.
Proof.
  intros HS HD Hne Hl Hc H4 Hg Hk Hh Ho Hv Hkind Hrw Hroom Hu Hall Ha He Ht.
  assert (Hn : 0 < n). { destruct (HD _ _ _ Ho Hv) as (L & _). destruct pieces; [congruence|]. cbn [length] in L. lia. }
  destruct (init_openable E argv w ino p n tino HS Hc H4 Hg) as (su & w1 & Hi & Hk1 & Ht1); auto; [split; [apply HS|auto]|lia|eapply Forall_impl; [|exact Hu]; intros x X; now left|].
  refine (supplied_succeeds E argv w pieces ino p n su w1 HS HD Hl He Ha (or_introl (conj Hg Hk)) _ Ho Hv Hall Hi Hk1 _ _).
  - intros ino' X. assert (ino' = tino) as -> by congruence. exact Hroom.
  - intros a path ip Hi2 X. rewrite Forall_forall in Hu. destruct (Hu a Hi2) as [[Y|(Y & _)]|path' ino' Y|path' ip' id Y1 Y2]; [congruence|congruence|left; congruence|right; eauto].
  - lia.
Qed.
