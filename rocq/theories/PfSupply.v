(** A run succeeds when every chunk can be obtained from one of the stores (C86). *)
From Coq Require Import Sorting.Permutation.
From Verif Require Import Base Lib Utils Sha Encrypt Chunker Caibx Index StoreLocal Target StoreHttp Chain Ui MainProg
  SpecBasic SpecCrypto SpecEnv SpecChunker SpecStore SpecHttp SpecCaibx SpecMain SpecRun SpecAvail SpecProgress SpecDelta SpecSupply
  PfUtils PfBasic PfIO PfRead PfKeyspec PfIndex PfFrame PfLocal PfHttp PfHttp2 PfHttp3 PfHttp5 PfCaibx PfCaibx2 PfTarget PfChain PfMain PfMain2 PfSetup PfRun PfSync PfAvail PfDelta.
Local Open Scope N_scope.

(** ** A local store that is right costs no more than the chunk *)
Section Stocked.
Variables (E : env) (sino : nat) (g : bytes) (ids : bytes -> Prop).
Hypothesis (HE : env_ok E).
Lemma wp_stocked_cost ls id out w : w_files w sino = g -> stocked E sino g ids ls -> kc_clean w ->
  wp (store_local_get_chunk E ls id out) (fun _ w' => used (blen out) w w') (fun _ _ => w_kcapi w = false -> (transfers (w_io w) < length out)%nat) w.
Proof.
  intros Hf (Hi & Hx & A & B) Hc. destruct HE as (HH & Hq & Hb & Hz). unfold store_local_get_chunk.
  change (wp (local_get_loop E (S (length (w_io w))) ls id out) (fun _ w' => used (blen out) w w') (fun _ _ => w_kcapi w = false -> (transfers (w_io w) < length out)%nat) w).
  cbn [local_get_loop]. apply wp_bind, wp_index_query; auto.
  - intros pos x' e Hx' P N1 N2. cbn zeta iota. apply wp_bind. eapply wp_index_get; [exact N1|].
    assert (Ie : In e (ix_entries (ls_idx ls))) by (eapply Permutation_in; [symmetry; exact P|eapply nth_error_In; eauto]). destruct (A e Ie) as (S1 & S2 & S3).
    destruct (blen out <? en_len e) eqn:El; [apply wp_ret; apply (used_more 0); [lia|apply used_refl]|].
    apply wp_bind, wp_pread_cost; cbn [set_idx ls_ino].
    + intros ev Hs Hr Ho Hbl Ht. cbn [negb]. destruct (negb (N.land (en_flags e) INDEX_FLAG_VALIDATED =? 0)); [apply wp_ret; split; [cbn; lia|auto]|].
      rewrite Hi, Hf in *. rewrite firstn_overlay by (unfold blen in *; lia). apply wp_bind, wp_chunk_id_why with (b := false); [discriminate|..].
      * intros k kv r _ _ Hr2 Hk. rewrite (Hr2 Hc), S3, N2, beq_refl. apply wp_ret. split; [cbn; lia|exact Hk].
      * intros kv _ K K0. cbn in K. congruence.
    + intros ev n Hs Hn Hl Hr Ht. cbn [negb]. apply wp_ret. split; [cbn; lia|auto].
    + intros Ht _. unfold blen in El. lia.
  - intros x' Hx' P Hno. cbn zeta iota. apply wp_ret. apply (used_more 0); [lia|apply used_refl].
Qed.
End Stocked.

(** ** The stores that are relied on *)
Section Supply.
Variables (E : env) (argv : list bytes) (w : world) (pieces : list bytes) (iino : nat) (p : params) (n : N).
Hypothesis (HS : sane E argv w) (Hio : error_free (w_io w)) (Hal : w_alloc w = []).
Hypothesis (Hlen : forall P, In P pieces -> 0 < blen P <= BUF_SIZE).
Hypothesis (Hopen : e_open E (cmd_index argv) = Some iino) (HV : valid_index (w_files w iino) p n).
Let sups := supplies E w (cmd_target argv) p pieces.
Definition rely (j : nat) : Prop := exists arg, nth_error (cmd_stores argv) j = Some arg /\
  ((exists id, seeded E w (cmd_target argv) p arg id) \/ exists P, In P pieces /\ sups arg P).
Definition sups_at (j : nat) (P : bytes) : Prop := exists arg, nth_error (cmd_stores argv) j = Some arg /\ sups arg P.
Definition fits (tino j : nat) (s : store) : Prop := exists arg, nth_error (cmd_stores argv) j = Some arg /\
  match s with
  | SLocal ls => (exists path ip, classify_arg (cmd_target argv) arg = ArgLocal path ip) /\
      exists sino, sino <> tino /\ stocked E sino (w_files w sino) (seeded E w (cmd_target argv) p arg) ls
  | SHttp hs => classify_arg (cmd_target argv) arg = ArgHttp arg /\
      exists base key, store_denotes E w arg base key /\ (forall k, key = Some k -> length k = 32%nat /\ bytes_ok k) /\ fhs base key hs /\
        forall P, In P pieces -> has_chunk E base key P \/ lacks_chunk E base key (e_H E P)
  | STarget => False
  end.

Lemma fits_get (sim : Prop) w1 tino : (forall i, w_files w1 i = w_files w i) -> forall j s t P out x, fits tino j s -> In P pieces -> t_ino t = tino -> fair w1 tino x -> blen out = BUF_SIZE -> store_ok E true x t s ->
  wp (store_get_chunk E s t (e_H E P) out) (fun r x' => let '(r, _, s', _) := r in fits tino j s' /\ (exists m, r = Some m /\ (sups_at j P -> 0 < m)) /\ spent sim BUF_SIZE x x') (fun _ _ => broke sim BUF_SIZE x) x.
Proof.
  intros Hw1 j s t P out x (arg & Ha & Hs) HP Ht Hfair Hl _. pose proof HS as [HE Hsv _ Hf _ _ _ _ _]. destruct s as [ls|hs|]; [| |contradiction].
  - destruct Hs as ((path & ip & Hc) & sino & Hne & Hst). pose proof Hfair as (F1 & F2 & F3 & F4). unfold store_get_chunk. apply wp_bind.
    assert (Fs : w_files x sino = w_files w sino) by (rewrite F1 by exact Hne; apply Hw1).
    eapply wp_mono; [apply (wp_conj2 _ _ _ _ _ _ _ (wp_get_stocked E HE sino (w_files w sino) (seeded E w (cmd_target argv) p arg) ltac:(apply Hf) ls (e_H E P) out x Fs Hst Hl F2 F4)
       (wp_stocked_cost E sino (w_files w sino) (seeded E w (cmd_target argv) p arg) HE ls (e_H E P) out x Fs Hst F4))|..].
    + intros [[r out'] ls'] x' ((A & m & B1 & B2) & U). apply wp_ret. split; [|split].
      * exists arg. split; [exact Ha|]. split; [eauto|]. exists sino. auto.
      * exists m. split; [exact B1|]. intros (arg' & Ha' & Hsup). assert (arg' = arg) by congruence. subst arg'. destruct Hsup as [Hsd|Hh _]; [auto|congruence].
      * intros _. rewrite <- Hl. exact U.
    + intros bd x' (_ & U) _ K. specialize (U K). unfold blen in Hl. lia.
  - destruct Hs as (Hc & base & key & Hd & Hk & Hh & Hall).
    eapply wp_mono; [apply (http_fit E base key sim w1 tino P hs t out x HE Hsv (Hlen P HP) Hk (Hall P HP) Hh Hfair Hl)| |auto].
    intros [[[r out'] s'] t'] x' ((hs' & -> & X) & (m & Y1 & Y2) & Z). split; [|split; [|exact Z]].
    + exists arg. split; [exact Ha|]. split; [exact Hc|]. exists base, key. auto.
    + exists m. split; [exact Y1|]. intros (arg' & Ha' & Hsup). assert (arg' = arg) by congruence. subst arg'. apply Y2. destruct Hsup as [Hsd|_ Hx]; [|apply (Hx base key Hd)].
      destruct Hsd as [? ? ? ? X1|? ? ? ? ? ? ? X1]; congruence.
Qed.

Lemma fits_found wk su w1 l : started w wk -> ready E true argv w wk su w1 -> su_store su = Some l -> found rely (fits (t_ino (su_target su))) 0 l.
Proof.
  intros Hst HR Hl j (arg & Ha & Hrel) _. rewrite Nat.sub_0_r.
  assert (I2 : su_params su = p).
  { assert (I1 : su_index su = iino) by (pose proof (rd_index _ _ _ _ _ _ _ HR); congruence). pose proof (rd_valid _ _ _ _ _ _ _ HR) as V. rewrite I1 in V. now destruct (valid_index_unique _ _ _ _ _ HV V). }
  assert (Ha0 : ~ In false (w_alloc w)) by (rewrite Hal; intros []).
  assert (Hcase : (exists id, seeded E w (cmd_target argv) p arg id) \/ (classify_arg (cmd_target argv) arg = ArgHttp arg /\
      forall base key, store_denotes E w arg base key -> forall P', In P' pieces -> has_chunk E base key P' \/ lacks_chunk E base key (e_H E P'))).
  { destruct Hrel as [X|(P & HP & [X|X Y])]; [left; exact X|left; eauto|right]. split; [exact X|]. intros base key Hd. apply (Y base key Hd). }
  clear Hrel. destruct Hcase as [(id0 & Hsd)|(Hc & Hx)].
  - pose proof (fun id H => seeded_stocked E argv w HS Hio Ha0 p wk su w1 j arg id l Hst HR I2 Ha H Hl) as SS.
    destruct (SS _ Hsd) as (ls & N1 & K1 & K2 & K3 & K4 & _). exists (SLocal ls). split; [exact N1|]. exists arg. split; [exact Ha|]. split; [destruct Hsd; eauto|].
    exists (ls_ino ls). split; [exact K1|]. split; [exact K2|]. split; [exact K3|]. split; [exact K4|]. intros id Hid. destruct (SS id Hid) as (ls' & N1' & _ & _ & _ & _ & K5). assert (ls' = ls) by congruence. subst ls'. now apply K5.
  - destruct (found_arg E argv w wk su w1 l arg j Hst HR Hl Ha Hc) as (base & key & hs & B1 & B2 & B3 & B4). exists (SHttp hs). split; [exact B3|].
    exists arg. split; [exact Ha|]. split; [exact Hc|]. exists base, key. split; [exact B1|]. split; [exact B2|]. split; [exact B4|]. apply (Hx base key B1).
Qed.

Lemma supply_stands (sim : Prop) su w1 : (forall P, In P pieces -> exists arg, In arg (cmd_stores argv) /\ sups arg P) ->
  (sim -> forall a path ip, In a (cmd_stores argv) -> classify_arg (cmd_target argv) a = ArgLocal path ip -> ip = None \/ exists id, seeded E w (cmd_target argv) p a id) ->
  stands E argv w pieces sim BUF_SIZE su w1.
Proof.
  intros Hall Hloc wk l Hst HR Hsu Hfair. pose proof (fits_found wk su w1 l Hst HR Hsu) as Hfound. exists rely, (fits (t_ino (su_target su))), sups_at. split; [|split; [|split; [|split]]].
  - intros j s t P out x _. apply fits_get. intros i. apply (ready_files _ _ _ _ _ _ _ Hst HR).
  - intros j s (arg & _ & Hs). destruct s as [ls|hs|]; auto. destruct Hs as (_ & sino & _ & Hst2). apply Hst2.
  - intros P HP. destruct (Hall P HP) as (arg & Hin & Hs). apply In_nth_error in Hin as (j & Hj). exists j. split; [exists arg; split; [exact Hj|]; right; eauto|exists arg; auto].
  - exact Hfound.
  - intros k ss arg S0 Hk Ha Hnl. destruct HR as [_ _ _ _ _ _ _ (l' & R8 & _ & R10)]. assert (l' = l) as -> by congruence.
    destruct (Forall2_at_r _ _ _ R10 k ss Hk) as (a & Ha' & M). assert (a = arg) by congruence. subst a.
    destruct M as (Act & M). destruct (ss_store ss) as [ls|hs1|] eqn:Es; [|left; exact Logic.I..]. destruct (classify_arg (cmd_target argv) arg) as [|u|path ip] eqn:Ec; try contradiction.
    destruct (Hloc S0 arg path ip (nth_error_In _ _ Ha) Ec) as [->|Hsd]; [elim (Hnl path eq_refl)|]. right.
    assert (Rk : rely k) by (exists arg; split; [exact Ha|]; now left). split; [exact Rk|].
    destruct (Hfound k Rk (Nat.le_0_l k)) as (s & X & Y). rewrite Nat.sub_0_r in X. rewrite X in Hk. injection Hk as <-. cbn in Es. congruence.
Qed.
End Supply.

Lemma supplied_no_failure E argv w pieces iino p n su w1 c : sane E argv w -> described E argv w pieces -> (forall P, In P pieces -> 0 < blen P <= BUF_SIZE) ->
  error_free (w_io w) -> w_alloc w = [] -> hash_reliable E w -> (forall ino, e_open_rw E (cmd_target argv) = Some ino -> has_room E w ino (blen (concat pieces))) ->
  e_open E (cmd_index argv) = Some iino -> valid_index (w_files w iino) p n ->
  (forall P, In P pieces -> exists arg, In arg (cmd_stores argv) /\ supplies E w (cmd_target argv) p pieces arg P) ->
  init E argv w = (Ok (InitOk su), w1) -> fst (main E argv w) = Ok c ->
  c = 0 \/ exists tr, run_trace w (snd (main E argv w)) tr /\ false_answer E pieces tr.
Proof.
  intros HS HD Hl He Ha Hr Hroom Ho HV Hall Hi Hc.
  destruct (supplied_run E argv w pieces False su w1 HS HD Hl He Ha Hr Hroom (supply_stands E argv w pieces iino p n HS He Ha Hl Ho HV False su w1 Hall ltac:(intros [])) Hi ltac:(intros [])) as [[X|X]|(X & _)].
  - left. rewrite X in Hc. now injection Hc as <-.
  - now right.
  - destruct (X c Hc).
Qed.

Lemma supplied_succeeds E argv w pieces iino p n su w1 : sane E argv w -> described E argv w pieces -> (forall P, In P pieces -> 0 < blen P <= BUF_SIZE) ->
  error_free (w_io w) -> w_alloc w = [] -> hash_reliable E w -> (forall ino, e_open_rw E (cmd_target argv) = Some ino -> has_room E w ino (blen (concat pieces))) ->
  e_open E (cmd_index argv) = Some iino -> valid_index (w_files w iino) p n ->
  (forall P, In P pieces -> exists arg, In arg (cmd_stores argv) /\ supplies E w (cmd_target argv) p pieces arg P) ->
  init E argv w = (Ok (InitOk su), w1) -> w_kcapi w1 = false ->
  (forall a path ip, In a (cmd_stores argv) -> classify_arg (cmd_target argv) a = ArgLocal path ip -> ip = None \/ exists id, seeded E w (cmd_target argv) p a id) ->
  (enough (length pieces) (length (cmd_stores argv)) <= transfers (w_io w1))%nat ->
  fst (main E argv w) = Ok 0 \/ exists tr, run_trace w (snd (main E argv w)) tr /\ false_answer E pieces tr.
Proof.
  intros HS HD Hl He Ha Hr Hroom Ho HV Hall Hi Hk Hloc Ht.
  destruct (supplied_run E argv w pieces True su w1 HS HD Hl He Ha Hr Hroom (supply_stands E argv w pieces iino p n HS He Ha Hl Ho HV True su w1 Hall (fun _ => Hloc)) Hi (fun _ => Hk)) as [X|(_ & X)]; [exact X|]. specialize (X Logic.I). lia.
Qed.
