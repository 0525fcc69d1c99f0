(** Whole runs: where the data comes from (C93). *)
From Coq Require Import Sorting.Permutation.
From Verif Require Import Base Lib Utils Sha Encrypt Chunker Caibx Index StoreLocal Target StoreHttp Chain Ui MainProg
  SpecBasic SpecCrypto SpecEnv SpecChunker SpecStore SpecHttp SpecCaibx SpecMain SpecRun SpecOrder SpecAvail SpecSource
  PfUtils PfBasic PfIO PfRead PfKeyspec PfIndex PfFrame PfLocal PfEncrypt PfHttp PfHttp2 PfCaibx PfTarget PfChain PfMain PfMain2 PfSetup PfRun PfOrder PfSource PfSource2.
Local Open Scope N_scope.

Section Run.
Variables (E : env) (b : bool) (argv : list bytes) (w : world).
Hypothesis (HS : sane E argv w) (HG : good_index E argv w).

Definition KS (s : store) : Prop :=
  match s with
  | SLocal ls => local_store E argv (ls_ino ls)
  | SHttp hs => http_store E argv w (hs_base hs) (hs_key hs) /\ (forall k, hs_key hs = Some k -> length k = 32%nat /\ bytes_ok k)
  | STarget => True
  end.
Lemma KS_kind s s' : same_kind s s' -> KS s -> KS s'.
Proof.
  destruct s, s'; cbn; try tauto.
  - intros (-> & _). auto.
  - intros (A & _ & B). now rewrite A, B.
Qed.
Lemma made_KS cp arg ss : In arg (cmd_stores argv) -> made E w (cmd_target argv) cp arg ss -> KS (ss_store ss).
Proof.
  intros Hin (_ & M). pose proof (classified (cmd_target argv) arg) as Hd. destruct (classify_arg (cmd_target argv) arg) as [|u|path ip], (ss_store ss) as [ls|hs|]; try contradiction; cbn.
  - exact Logic.I.
  - destruct M as (w1 & F & url & params & A & B & C & _ & _ & _ & K). split; [|exact K]. assert (u = arg) as -> by now inversion Hd.
    exists arg. split; [exact Hin|]. split; [exact Hd|]. exists url, params. split; [exact A|]. split; [exact B|]. clear -C F.
    induction C; [constructor| |]; match goal with K : key_text _ _ _ _ |- _ => apply (key_text_ext E w) in K; [|exact F] end; [eapply pk_last; eauto|eapply pk_more; eauto].
  - destruct M as (M & _). exists arg, path, ip. auto.
Qed.
Lemma made_ksubs cp args l : Forall2 (made E w (cmd_target argv) cp) args l -> incl args (cmd_stores argv) -> ksubs KS l.
Proof.
  induction 1 as [|a ss args l H _ IH]; intros Hi; constructor.
  - eapply made_KS; [|exact H]. apply Hi. now left.
  - apply IH. intros x Hx. apply Hi. now right.
Qed.

Lemma sup_run wk su w1 : started w wk -> ready E b argv w wk su w1 ->
  let f := w_files w (su_index su) in let n := N.to_nat (su_n su) in let tino := t_ino (su_target su) in
  let Sup := comes_from E b argv w f (w_files w tino) n in
  wp (run_sync E su) (fun code w' => puts f n tino w1 Sup w' /\
        (code = 0 -> forall j, (j < n)%nat -> 0 < ent_size f j -> Sup (ent_id f j) (ent_slice f j (w_files w' tino))))
     (fun bd w' => puts f n tino w1 Sup w') w1.
Proof.
  intros Hk HR f n tino Sup. pose proof (ready_files _ _ _ _ _ _ _ Hk HR) as Hfil. pose proof (ready_initial _ _ _ _ _ _ _ HS Hk HR) as HM.
  cbv zeta in HM. fold f n tino in HM. destruct HS as [HE Hsv Hes Hf Hargs Hhelp Hix Hal Hd]. destruct HR as [R1 R2 R3 R4 R5 R6 R7 (l & R8 & R9 & R10)].
  assert (Hn : su_n su = N.of_nat n) by (unfold n; lia). pose proof (HG _ _ _ R2 R4) as Hwf. fold f n in Hwf.
  assert (Hok : bytes_ok f) by apply Hf. assert (Hlim : blen f < OFF_LIMIT) by apply Hf.
  assert (Hlen : (64 + 40 * n <= length f)%nat) by (eapply valid_length; eauto).
  assert (Hino : su_index su <> tino) by (intros Heq; apply (Hix tino R3); rewrite R2; congruence).
  assert (HL : forall ls id D before after, KS (SLocal ls) -> w_files w1 (ls_ino ls) = before ++ D ++ after -> Sup id D).
  { intros ls id D x y K Ef. rewrite Hfil in Ef. eapply cf_local; eauto. }
  assert (HH : forall hs, KS (SHttp hs) -> (forall k, hs_key hs = Some k -> length k = 32%nat /\ bytes_ok k) /\ forall id D, gave E (hs_base hs) (hs_key hs) (N.to_nat BUF_SIZE) id D -> Sup id D).
  { intros hs (K1 & K2). split; [exact K2|]. intros id D G. eapply cf_http; eauto. }
  assert (HO : forall j, (j < n)%nat -> (forall i, (i <= j)%nat -> holds E b f i (w_files w1 tino)) -> Sup (ent_id f j) (ent_slice f j (w_files w1 tino))).
  { intros j Hj Hh. rewrite Hfil in *. eapply cf_old; eauto. }
  set (Inv := fun i last st x => MInv E b f n tino w1 i last st x /\ X E b f n tino w1 Sup KS i st x).
  assert (HP : forall i last st x ev, Inv i last st x -> puts f n tino w1 Sup (set_io ev x)) by (intros i last st x ev (_ & [_ _ _ P _ _]); exact P).
  unfold run_sync, caibx_iterate_entries. rewrite Hn at 1. apply wp_bind. rewrite Hn, Nat2N.id.
  eapply wp_mono; [apply (iterate_prefix_rule (entry_cb E (N.of_nat n)) (su_index su) (su_params su) f n Hok Hlen Hlim Inv (fun _ x => puts f n tino w1 Sup x) (fun _ x => puts f n tino w1 Sup x)) with (i := O)|..].
  - intros i last st x ((_ & HC & _) & _). rewrite (mi_files _ _ _ _ _ _ _ _ _ HC) by exact Hino. apply Hfil.
  - intros i last st x ev Hi HI Hev _. destruct HI as (HI & HX). pose proof HI as (-> & _).
    rewrite (not_skipped f n tino (su_index su) (su_params su) Hwf Hok Hlen Hlim Hino i Hi), (ent_len_size f n tino (su_index su) Hwf Hok Hlen Hlim Hino i Hi).
    destruct (Hwf i Hi) as (_ & B & _). rewrite N.mod_small by exact B.
    apply (MInv_io _ _ _ _ _ _ _ _ _ _ ev) in HI; [|exact Hev]. apply (X_io _ _ _ _ _ _ _ _ _ _ _ ev) in HX.
    eapply wp_mono; [apply (wp_conj _ _ _ _ _ _ _ (wp_entry_cb E b f n tino w1 HE Hsv Hwf Hlen Hlim (N.of_nat n) i st _ Hi HI)
        (sup_entry E b f n tino w1 Sup KS HE Hsv Hwf Hok Hlen Hlim KS_kind HL HH HO (N.of_nat n) i st _ Hi HI HX))| |].
    + intros r x' (H1 & H2 & H3). cbv zeta in H1. destruct (fst r); [|exact H2]. split; [apply H1|auto].
    + intros bd x' (_ & H). exact H.
  - intros i last st x ev Hi HI _ _. eapply HP; eauto.
  - intros i last st x Hi HI _. eapply HP; eauto.
  - lia.
  - split; [exact HM|]. constructor; cbn [initial_mstate m_store m_target m_buf m_last_id m_resuming].
    + exists l. split; [exact R8|]. eapply made_ksubs; [exact R10|apply incl_refl].
    + intros Hq e He. destruct (R6 Hq) as (_ & A & _). unfold entries in He. rewrite A in He. destruct He.
    + discriminate.
    + exists []. split; [reflexivity|constructor].
    + intros j Hj. lia.
    + intros _. split; [reflexivity|]. intros j Hj. lia.
  - intros [ok st] w2 H. cbn [fst snd Nat.add] in H. destruct ok; cbn [negb].
    2:{ apply wp_ret. split; [exact H|discriminate]. }
    destruct H as (last & (_ & HC & _) & [X1 X2 X3 X4 X5 X6]).
    destruct (mi_chain _ _ _ _ _ _ _ _ _ HC) as (l2 & Hl & _). rewrite Hl.
    apply (wp_frame none never).
    { apply frame_bind; [apply frame_chain_free|intros; apply frame_ret]. }
    apply wp_bind. apply wp_any.
    + intros _ w3. apply wp_ret. intros Q. split; [eapply puts_quiet; [|exact Q|exact X4]; intros ev []|].
      intros _ j Hj Hp. destruct (quiet_never _ _ Q) as (Q1 & _). rewrite Q1. now apply X5.
    + intros bd w3 Q. eapply puts_quiet; [|exact Q|exact X4]. intros ev [].
  - auto.
Qed.

Lemma prov_sourced f n tino w1 w' : (forall i, w_files w1 i = w_files w i) -> the_index E argv w f n ->
  prov tino w1 w' -> puts f n tino w1 (comes_from E b argv w f (w_files w tino) n) w' -> sourced E b argv w tino w'.
Proof.
  intros Hfil Hx (tr & T & Hp) (tr' & T' & Hf) k. assert (tr' = tr) as -> by (apply (app_inv_tail (w_trace w1)); congruence).
  destruct (Hp k) as [H|(o & D & q & H1 & H2 & H3 & H4)]; [left; now rewrite <- Hfil|right].
  rewrite Forall_forall in Hf. specialize (Hf _ H1). cbn in Hf. destruct (Hf ltac:(intros ->; cbn in H3; lia)) as (_ & j & J1 & -> & J2 & J3).
  exists f, n, j, D, q. auto 10.
Qed.

Definition done_from (tino : nat) (w' : world) : Prop :=
  forall f n j, the_index E argv w f n -> (j < n)%nat -> 0 < ent_size f j ->
    let D := ent_slice f j (w_files w' tino) in
    comes_from E b argv w f (w_files w tino) n (ent_id f j) D /\ length D = N.to_nat (ent_size f j) /\ hashes E b D (ent_id f j).
Lemma main_sources tino : (b = true -> hash_reliable E w) -> e_open_rw E (cmd_target argv) = Some tino ->
  wp (main E argv) (fun code w' => sourced E b argv w tino w' /\ (code = 0 -> done_from tino w')) (fun bd w' => sourced E b argv w tino w') w.
Proof.
  intros Hb Ht. rewrite main_init. apply wp_bind.
  assert (Q0 : forall wk w1, started w wk -> quiet0 wk w1 -> sourced E b argv w tino w1).
  { intros wk w1 (k & ->) Q i. left. now rewrite (quiet0_files _ _ Q). }
  eapply wp_mono; [apply (wp_init E b argv w HS Hb)| |].
  - intros [su| |c] w1 (wk & Hk & Q & H).
    + pose proof (ready_files _ _ _ _ _ _ _ Hk H) as Hfil. pose proof H as [R1 R2 R3 R4 R5 R6 R7 R8].
      assert (t_ino (su_target su) = tino) as Et by congruence.
      assert (Hx : the_index E argv w (w_files w (su_index su)) (N.to_nat (su_n su))).
      { exists (su_index su), (su_params su). rewrite N2Nat.id. auto. }
      eapply wp_mono; [apply (wp_conj _ _ _ _ _ _ _ (sup_run wk su w1 Hk H) (wp_run_sync E b argv w HS HG wk su w1 Hk H))| |]; rewrite Et.
      * intros code w' ((H1 & H2) & _ & [_ _ ((_ & A) & _) D]). rewrite Et in *. split; [eapply prov_sourced; eauto|]. intros ->.
        intros f n j (ino & p & F1 & <- & F2) Hj Hp D0. assert (ino = su_index su) as -> by congruence.
        destruct (D eq_refl) as (D1 & D2 & D3).
        assert (n = N.to_nat (su_n su)) as ->.
        { destruct F2 as (V1 & _). destruct R4 as (V2 & _). lia. }
        split; [now apply H2|]. destruct (D3 j Hj) as (D4 & D5). split; [|now apply D5].
        unfold D0, ent_slice. apply length_slice. destruct (HG _ _ _ R2 R4 j Hj) as (W1 & _). unfold ent_size, blen in *. lia.
      * intros bd w' (H1 & d & [_ _ ((_ & A) & _) D] & _). rewrite Et in *. eapply prov_sourced; eauto.
    + apply wp_ret. split; [eauto|discriminate].
    + apply wp_ret. subst c. split; [eauto|discriminate].
  - intros bd w1 (_ & wk & Hk & Q). eauto.
Qed.
End Run.

(** ** Servers with something else *)
Section Other.
Variables (E : env) (L : nat) (body P : bytes).
Hypothesis (Hd : decodes E body P) (HL : (length P <= L)%nat).
Lemma decoding_other ps left h d : decoding E L ps left h d -> ~ In [] ps -> forall rest, body = concat ps ++ rest ->
  exists c, fed E body P h c (length d) /\ (c <= length (concat ps))%nat /\ left = skipn c (concat ps) /\ d = firstn (length d) P /\ (h = [] -> c = 0%nat) /\ (h <> [] -> rest = [] -> d = P).
Proof.
  destruct Hd as (_ & Hs).
  assert (Step : forall ps left h d x dc dp rest c, ~ In [] (ps ++ [x]) -> body = concat (ps ++ [x]) ++ rest -> fed E body P h c (length d) -> (c <= length (concat ps))%nat -> left = skipn c (concat ps) ->
     d = firstn (length d) P -> e_zstep E h (left ++ x) (L - length d) = Some (dc, dp) ->
     exists c', fed E body P ((left ++ x, (L - length d)%nat) :: h) c' (length (d ++ dp)) /\ (c' <= length (concat (ps ++ [x])))%nat /\ skipn dc (left ++ x) = skipn c' (concat (ps ++ [x])) /\ d ++ dp = firstn (length (d ++ dp)) P /\ (rest = [] -> d ++ dp = P)).
  { clear ps left h d. intros ps left h d x dc dp rest c Hne Hbody HF Hc -> Hpre Hz.
    assert (Hx : x <> []) by (intros ->; apply Hne, in_or_app; right; now left).
    assert (Ei : skipn c (concat ps) ++ x = skipn c (concat (ps ++ [x]))) by (rewrite concat_app; cbn [concat]; rewrite app_nil_r, skipn_app_le by exact Hc; reflexivity).
    assert (Er : skipn c body = (skipn c (concat ps) ++ x) ++ rest).
    { rewrite Hbody, skipn_app_le by (rewrite concat_app, app_length; lia). now rewrite Ei. }
    assert (Hni : skipn c (concat ps) ++ x <> []) by (destruct x; [congruence|]; intros X; apply app_eq_nil in X as (_ & X); discriminate).
    destruct (Hs h c (length d) _ rest (L - length d)%nat HF Hni Er ltac:(lia)) as (dc' & dp' & Z1 & Z2 & more & Z3 & Z4).
    rewrite Hz in Z1. injection Z1 as <- <-. exists (c + dc)%nat.
    assert (Hpp : d ++ dp ++ more = P) by (rewrite <- Z3; rewrite Hpre at 1; apply firstn_skipn).
    split; [|split; [|split; [|split]]].
    - rewrite app_length. apply (fed_step E body P h c (length d) _ rest (L - length d)%nat dc dp HF Hni Er); [lia|exact Hz].
    - rewrite Ei, skipn_length in Z2. rewrite concat_app, app_length in *. lia.
    - rewrite Ei, <- skipn_add. reflexivity.
    - rewrite <- Hpp, app_assoc. symmetry. apply firstn_exact.
    - intros ->. destruct (Z4 eq_refl) as (_ & ->). now rewrite app_nil_r in Hpp. }
  induction 1 as [|ps left x H IH Hl|ps left x dc dp H IH Hm Hz|ps left h d x dc dp Hh H IH Hz]; intros Hne rest Hb.
  - exists 0%nat. cbn. split; [constructor|]. repeat split; auto; congruence.
  - assert (Hne' : ~ In [] ps) by (intros X; apply Hne, in_or_app; now left).
    destruct (IH Hne' (x ++ rest)) as (c & C1 & C2 & C3 & C4 & C5 & C6); [rewrite Hb, concat_app; cbn [concat]; now rewrite app_nil_r, app_assoc|].
    specialize (C5 eq_refl). subst c. exists 0%nat. split; [constructor|]. split; [lia|]. split; [rewrite concat_app; cbn [concat]; rewrite app_nil_r; cbn [skipn] in C3 |- *; now rewrite C3|]. repeat split; auto; congruence.
  - assert (Hne' : ~ In [] ps) by (intros X; apply Hne, in_or_app; now left).
    destruct (IH Hne' (x ++ rest)) as (c & C1 & C2 & C3 & C4 & C5 & C6); [rewrite Hb, concat_app; cbn [concat]; now rewrite app_nil_r, app_assoc|].
    destruct (Step ps left [] [] x dc dp rest c Hne Hb C1 C2 C3 C4 ltac:(cbn [length]; now rewrite Nat.sub_0_r)) as (c' & A1 & A2 & A3 & A4 & A5).
    cbn [length app] in *. rewrite Nat.sub_0_r in A1. exists c'. split; [exact A1|]. split; [exact A2|]. split; [exact A3|]. split; [exact A4|]. split; [discriminate|auto].
  - assert (Hne' : ~ In [] ps) by (intros X; apply Hne, in_or_app; now left).
    destruct (IH Hne' (x ++ rest)) as (c & C1 & C2 & C3 & C4 & C5 & C6); [rewrite Hb, concat_app; cbn [concat]; now rewrite app_nil_r, app_assoc|].
    destruct (Step ps left h d x dc dp rest c Hne Hb C1 C2 C3 C4 Hz) as (c' & A1 & A2 & A3 & A4 & A5).
    exists c'. split; [exact A1|]. split; [exact A2|]. split; [exact A3|]. split; [exact A4|]. split; [discriminate|auto].
Qed.
End Other.

Lemma map_length_nil (l l' : list bytes) : map (@length N) l = map (@length N) l' -> ~ In [] l' -> ~ In [] l.
Proof.
  revert l'. induction l as [|x l IH]; intros [|y l'] H Hn Hi; try discriminate; [destruct Hi|]. injection H as H1 H2. destruct Hi as [->|Hi].
  - apply Hn. left. destruct y; [reflexivity|discriminate].
  - apply (IH l' H2); [|exact Hi]. intros X. apply Hn. now right.
Qed.
Lemma concat_lengths (l l' : list bytes) : map (@length N) l = map (@length N) l' -> length (concat l) = length (concat l').
Proof.
  revert l'. induction l as [|x l IH]; intros [|y l'] H; try discriminate; [reflexivity|]. injection H as H1 H2. cbn [concat]. rewrite !app_length, H1, (IH l' H2). reflexivity.
Qed.
Lemma on_the_wire_length key id body : length (on_the_wire key id body) = length body.
Proof. destruct key; cbn [on_the_wire]; [|reflexivity]. rewrite <- xchacha_from_0. apply length_xchacha_from. Qed.
Lemma on_the_wire_inj key id a c : on_the_wire key id a = on_the_wire key id c -> a = c.
Proof.
  destruct key as [k|]; cbn [on_the_wire]; [|auto]. rewrite <- !xchacha_from_0. intros H.
  rewrite <- (xchacha_from_invol k (firstn 24 id) 0 a), H. apply xchacha_from_invol.
Qed.

Lemma gave_other E base key L id P D : only_has E base key id P -> (length P <= L)%nat -> gave E base key L id D -> D = P.
Proof.
  intros (body & Hd & Hlb & Hsv) HL (url & first & k & ps & G1 & G2 & G3 & (G4 & s & G5 & G6) & G7 & G8 & G9 & left & h & G10 & G11).
  specialize (Hsv url G1). 
  assert (Hlast : serves E url (first + k) (on_the_wire key id body)).
  { destruct (Hsv (first + k)%nat) as [(_ & T)|[H|(_ & s' & H1 & H2)]]; [|exact H|].
    - unfold transient in T. destruct G4 as [X|X]; rewrite X in T; destruct T as [T|[T|T]]; discriminate.
    - rewrite G5 in H1. injection H1 as <-. lia. }
  assert (Hbefore : forall m, (m <= k)%nat -> concat (map (fun i => p_segs (e_server E url i)) (seq first m)) = []).
  { induction m as [|m IH]; intros Hm; [reflexivity|]. rewrite seq_S, map_app, concat_app, IH by lia. cbn. rewrite app_nil_r.
    specialize (G3 m ltac:(lia)). destruct (Hsv (first + m)%nat) as [(A & _)|[(_ & A & _)|(A & _)]]; [exact A| |]; unfold transient in G3; rewrite A in G3; destruct G3 as [X|[X|X]]; discriminate. }
  assert (Hsent : sent E url first (S k) = p_segs (e_server E url (first + k))).
  { unfold sent. rewrite flat_map_concat_map, seq_S, map_app, concat_app, (Hbefore k (Nat.le_refl k)). cbn. apply app_nil_r. }
  destruct Hlast as (_ & _ & S3 & S4). rewrite Hsent in *.
  assert (Hlen : length (concat ps) = length body) by (rewrite (concat_lengths _ _ G8), S3; apply on_the_wire_length).
  assert (Hbody : body = concat ps).
  { rewrite S3 in G9. apply (on_the_wire_inj key id). apply G9. unfold blen in *. now rewrite Hlen. }
  destruct (decoding_other E L body P Hd HL ps left h D G10 (map_length_nil _ _ G8 S4) []) as (c & _ & _ & _ & _ & _ & X); [now rewrite app_nil_r|]. auto.
Qed.

Lemma main_unavailable E argv w tino f n j : sane E argv w -> good_index E argv w -> hash_reliable E w -> e_open_rw E (cmd_target argv) = Some tino ->
  the_index E argv w f n -> (j < n)%nat -> 0 < ent_size f j ->
  (forall D, comes_from E true argv w f (w_files w tino) n (ent_id f j) D -> length D = N.to_nat (ent_size f j) -> e_H E D <> ent_id f j) ->
  fst (main E argv w) <> Ok 0.
Proof.
  intros HS HG Hr Ht Hx Hj Hp Hno H0. pose proof (main_sources E true argv w HS HG tino (fun _ => Hr) Ht) as W. unfold wp in W.
  destruct (main E argv w) as [o w']. cbn in H0. subst o. destruct W as (_ & W). destruct (W eq_refl f n j Hx Hj Hp) as (A & B & C). exact (Hno _ A B C).
Qed.
Lemma main_corrupted E argv w tino f n j : sane E argv w -> good_index E argv w -> hash_reliable E w -> e_open_rw E (cmd_target argv) = Some tino ->
  the_index E argv w f n -> (j < n)%nat -> 0 < ent_size f j ->
  (forall base key, http_store E argv w base key -> exists P, only_has E base key (ent_id f j) P /\ blen P <= BUF_SIZE /\ e_H E P <> ent_id f j) ->
  (forall ino before D after, local_store E argv ino -> w_files w ino = before ++ D ++ after -> length D = N.to_nat (ent_size f j) -> e_H E D <> ent_id f j) ->
  (forall i, (i < n)%nat -> ent_id f i = ent_id f j -> exists k, (k <= i)%nat /\ ~ holds E true f k (w_files w tino)) ->
  fst (main E argv w) <> Ok 0.
Proof.
  intros HS HG Hr Ht Hx Hj Hp H1 H2 H3. apply (main_unavailable E argv w tino f n j HS HG Hr Ht Hx Hj Hp).
  intros D [base key A B|ino x y A B|i A1 A2 A3 A4] L.
  - destruct (H1 base key A) as (P & P1 & P2 & P3). rewrite (gave_other E base key (N.to_nat BUF_SIZE) _ P D P1 ltac:(unfold blen in P2; lia) B). exact P3.
  - eapply H2; eauto.
  - destruct (H3 i A1 A2) as (k & K1 & K2). elim K2. apply A3, K1.
Qed.
Lemma main_sourced E b argv w tino : sane E argv w -> good_index E argv w -> (b = true -> hash_reliable E w) -> e_open_rw E (cmd_target argv) = Some tino ->
  sourced E b argv w tino (snd (main E argv w)).
Proof.
  intros HS HG Hr Ht. pose proof (main_sources E b argv w HS HG tino Hr Ht) as W. unfold wp in W. destruct (main E argv w) as [[c| | |] w']; cbn [snd]; try exact W. apply W.
Qed.
Lemma main_from E b argv w tino w' f n j : sane E argv w -> good_index E argv w -> (b = true -> hash_reliable E w) -> e_open_rw E (cmd_target argv) = Some tino ->
  main E argv w = (Ok 0, w') -> the_index E argv w f n -> (j < n)%nat -> 0 < ent_size f j ->
  comes_from E b argv w f (w_files w tino) n (ent_id f j) (ent_slice f j (w_files w' tino)).
Proof.
  intros HS HG Hr Ht Hm Hx Hj Hp. pose proof (main_sources E b argv w HS HG tino Hr Ht) as W. unfold wp in W. rewrite Hm in W. now apply W.
Qed.
