(** casync and csn (C77). *)
From Verif Require Import Base Lib Utils Sha Chunker Caibx Index StoreLocal Target StoreHttp Chain Ui MainProg
  SpecBasic SpecRun SpecCasync PfUtils PfBasic PfIO PfFrame PfLocal PfSetup.
Local Open Scope N_scope.

Definition same_b (b1 b2 : building) : Prop := b_chain b1 = b_chain b2 /\ b_target b1 = b_target b2.
Definition slots_ok (k : nat) (w : world) (b : building) : Prop :=
  0 < b_space b /\ N.of_nat (length (b_chain b)) <= b_space b /\ (w_alloc w = [] \/ N.of_nat (length (b_chain b) + k) <= b_space b).
Definition same_r (k : nat) (x y : outcome (option building) * world) : Prop :=
  snd x = snd y /\
  match fst x, fst y with
  | Ok (Some b1), Ok (Some b2) => same_b b1 b2 /\ slots_ok k (snd x) b1 /\ slots_ok k (snd x) b2
  | Ok None, Ok None | Abort, Abort | UB, UB | Halt, Halt => True
  | _, _ => False
  end.

Lemma no_alloc A (m : M A) w : frame none (fun _ => True) m -> w_alloc w = [] -> w_alloc (snd (m w)) = [].
Proof. intros F H. destruct (F w) as (_ & _ & I1 & _). rewrite H in I1. destruct (w_alloc (snd (m w))) as [|x l]; [reflexivity|]. destruct (I1 x (or_introl eq_refl)). Qed.

Lemma bind_rel A B (P : outcome B * world -> outcome B * world -> Prop) (m : M A) (k1 k2 : A -> M B) w :
  (forall w1, P (Abort, w1) (Abort, w1) /\ P (UB, w1) (UB, w1) /\ P (Halt, w1) (Halt, w1)) ->
  (forall a w1, m w = (Ok a, w1) -> P (k1 a w1) (k2 a w1)) -> P (bind m k1 w) (bind m k2 w).
Proof. intros H1 H2. unfold bind. destruct (m w) as [[a| | |] w1]; [now apply H2|apply H1..]. Qed.
Lemma same_r_stops k w1 : same_r k (Abort, w1) (Abort, w1) /\ same_r k (UB, w1) (UB, w1) /\ same_r k (Halt, w1) (Halt, w1).
Proof. repeat split. Qed.

Lemma append_slot space l s w : 0 < space -> N.of_nat (length l) <= space -> (w_alloc w = [] \/ N.of_nat (length l) < space) ->
  exists sp', store_chain_append space l s w = (Ok (true, sp', l ++ [mkSub s true]), w) /\ space <= sp' /\ N.of_nat (S (length l)) <= sp'.
Proof.
  intros H0 H1 H2. unfold store_chain_append. cbv zeta. destruct (space <=? N.of_nat (length l)) eqn:Ef.
  - destruct H2 as [H2|H2]; [|lia]. unfold bind, alloc. rewrite H2. cbn [negb]. replace (space * 2 <=? N.of_nat (length l)) with false by lia.
    exists (space * 2). split; [reflexivity|lia].
  - unfold bind, ret. cbn [negb]. rewrite Ef. exists space. split; [reflexivity|lia].
Qed.
Lemma same_append E tp cp n arg k b1 b2 w : same_b b1 b2 -> slots_ok (S k) w b1 -> slots_ok (S k) w b2 ->
  same_r k (append_store_from_arg E tp cp n b1 arg w) (append_store_from_arg E tp cp n b2 arg w).
Proof.
  intros (Hc & Ht) S1 S2. unfold append_store_from_arg. rewrite Ht.
  match goal with |- same_r _ (bind ?m _ _) _ => set (mk := m); assert (F : frame none (fun _ => True) mk) end.
  { unfold mk. destruct (classify_arg tp arg).
    - apply frame_bind; [apply frame_as_store|]. intros [[] t]; apply frame_ret.
    - apply frame_bind; [apply frame_http_new|]. intros [hs|]; apply frame_ret.
    - apply frame_bind; [apply frame_local_new; intros; exact Logic.I|]. intros [ls|]; apply frame_ret. }
  apply bind_rel; [apply same_r_stops|]. intros r w1 R. pose proof (fun H => no_alloc _ _ w F H) as Ha. rewrite R in Ha. cbn [snd] in Ha.
  destruct r as [[s t]|]; [|split; [reflexivity|exact Logic.I]].
  destruct S1 as (A1 & A2 & A3), S2 as (B1 & B2 & B3).
  destruct (append_slot (b_space b1) (b_chain b1) s w1 A1 A2 ltac:(destruct A3; [left; auto|right; lia])) as (sp1 & E1 & Q1 & Q2).
  destruct (append_slot (b_space b2) (b_chain b2) s w1 B1 B2 ltac:(destruct B3; [left; auto|right; lia])) as (sp2 & E2 & Q3 & Q4).
  unfold bind. rewrite E1, E2. split; [reflexivity|]. cbn [fst snd ret]. unfold same_b, slots_ok. cbn [b_chain b_target b_space]. rewrite !app_length. cbn [length]. rewrite <- Hc in *.
  split; [auto|]. split.
  - split; [lia|]. split; [lia|]. destruct A3 as [A3|A3]; [left; auto|right; lia].
  - split; [lia|]. split; [lia|]. destruct B3 as [B3|B3]; [left; auto|right; lia].
Qed.
Lemma same_appends E tp cp n : forall args b1 b2 w, same_b b1 b2 -> slots_ok (length args) w b1 -> slots_ok (length args) w b2 ->
  same_r 0 (append_stores E tp cp n b1 args w) (append_stores E tp cp n b2 args w).
Proof.
  induction args as [|a args IH]; intros b1 b2 w H S1 S2; cbn [append_stores].
  { split; [reflexivity|]. cbn. auto. }
  cbn [length] in *. pose proof (same_append E tp cp n a (length args) b1 b2 w H S1 S2) as (Hw & Ho). unfold bind.
  destruct (append_store_from_arg E tp cp n b1 a w) as [o1 w1], (append_store_from_arg E tp cp n b2 a w) as [o2 w2]. cbn [fst snd] in *. subst w2.
  destruct o1 as [[b1'|]| | |], o2 as [[b2'|]| | |]; try contradiction; try (split; [reflexivity|exact Logic.I]). destruct Ho as (H1 & H2 & H3). now apply IH.
Qed.
(** The option loop adds the stores in the order of the options. *)
Lemma opts_appends E tp cp n : forall os b w, ~ In OptHelp os -> ~ In OptBad os ->
  casync_opts E tp cp n b os w = (r <- append_stores E tp cp n b (store_opts os) ;; ret (match r with Some b' => OptsDone b' | None => OptsFail end)) w.
Proof.
  induction os as [|o os IH]; intros b w H1 H2; [reflexivity|]. destruct o.
  - elim H1. now left.
  - change (store_opts (OptStore arg :: os)) with (arg :: store_opts os). cbn [casync_opts append_stores]. unfold bind.
    destruct (append_store_from_arg E tp cp n b arg w) as [[[b'|]| | |] w1]; try reflexivity. rewrite IH; [reflexivity|intros X; apply H1; now right|intros X; apply H2; now right].
  - change (store_opts (OptIgnored :: os)) with (store_opts os). cbn [casync_opts]. apply IH; intros X; [apply H1|apply H2]; now right.
  - elim H2. now left.
Qed.

(** What both programs do after looking at their arguments; [hint] slots are reserved. *)
Definition extract (E : env) (index_path target_path : bytes) (hint : N) (stores : list bytes) : M init_res :=
  match e_open E index_path with
  | None => ret InitFail
  | Some ino =>
      h <- caibx_load_header E ino ;;
      match h with
      | None => ret InitFail
      | Some (cp, n) =>
          t <- target_new E target_path ;;
          match t with
          | None => ret InitFail
          | Some t =>
              s <- store_chain_new hint ;;
              match s with
              | None => ret InitFail
              | Some space =>
                  b <- append_stores E target_path cp n (mkB space [] t) stores ;;
                  match b with
                  | None => ret InitFail
                  | Some b => ret (InitOk (mkSetup ino cp n (b_target b) (Some (b_chain b))))
                  end
              end
          end
      end
  end.
Lemma csn_extract E c i t l w : l <> [] -> e_getenv E (bs "CSN_KCAPI_DRIVER") = None ->
  csn E (c :: i :: t :: l) w = extract E i t (N.of_nat (length l) + 1) l w.
Proof.
  intros Hl He. destruct l as [|a l]; [congruence|]. unfold csn. rewrite He.
  replace (N.of_nat (length (c :: i :: t :: a :: l)) - 3 + 1) with (N.of_nat (length (a :: l)) + 1) by (cbn [length]; lia). reflexivity.
Qed.
Lemma casync_extract E argv os w : extraction argv os ->
  casync E argv w = extract E (nth (length argv - 2) argv []) (nth (length argv - 1) argv []) (N.of_nat (casync_slots argv)) (store_opts os) w.
Proof.
  intros (Hn & Hl & ns & Hg & Hns & Hx & Hh & Hbad). unfold casync, extract, casync_slots. cbv zeta. replace (Nat.ltb (length argv) 3) with false by (symmetry; apply Nat.ltb_ge; lia).
  destruct (e_open E _) as [ino|]; [|reflexivity]. rewrite Hg.
  apply bind_rel; [auto|]. intros [[cp n]|] w1 _; [|reflexivity]. apply bind_rel; [auto|]. intros [t|] w2 _; [|reflexivity]. apply bind_rel; [auto|]. intros [sp|] w3 _; [|reflexivity].
  unfold bind at 1. rewrite opts_appends by assumption. unfold bind. destruct (append_stores _ _ _ _ _ _ w3) as [[[b|]| | |] w4]; try reflexivity. cbn [ret].
  replace (Nat.ltb (length ns) 3) with false by (symmetry; apply Nat.ltb_ge; lia). rewrite Hx, beq_refl. reflexivity.
Qed.
Lemma slots_fresh k w space t : (w_alloc w = [] \/ N.of_nat k <= space) -> 0 < space -> slots_ok k w (mkB space [] t).
Proof. intros H Hs. unfold slots_ok. cbn [b_space b_chain length]. split; [exact Hs|]. split; [lia|]. destruct H; [now left|right; cbn; lia]. Qed.
Definition two_allocs : M bool := a <- alloc ;; if negb (a : bool) then ret false else alloc.
Lemma new_split h w : store_chain_new h w = (ok <- two_allocs ;; ret (if (ok : bool) then Some (N.max 1 h) else None)) w.
Proof.
  unfold store_chain_new, two_allocs, bind. destruct (alloc w) as [[[]| | |] w1]; cbn [negb]; try reflexivity. destruct (alloc w1) as [[[]| | |] w2]; reflexivity.
Qed.
Lemma frame_two : frame none (fun _ => True) two_allocs. Proof. unfold two_allocs. framer. Qed.
Lemma extract_hint E i t h1 h2 l w : (w_alloc w = [] \/ N.of_nat (length l) <= N.max 1 h1) -> (w_alloc w = [] \/ N.of_nat (length l) <= N.max 1 h2) ->
  extract E i t h1 l w = extract E i t h2 l w.
Proof.
  intros H1 H2. unfold extract. destruct (e_open E i) as [ino|]; [|reflexivity].
  apply bind_rel; [auto|]. intros [[cp n]|] w1 R1; [|reflexivity]. apply bind_rel; [auto|]. intros [tg|] w2 R2; [|reflexivity].
  assert (Hw2 : w_alloc w = [] -> w_alloc w2 = []).
  { intros H. pose proof (no_alloc _ _ w (frame_load_header none (fun _ => True) E ino) H) as X. rewrite R1 in X. pose proof (no_alloc _ _ w1 (frame_target_new none (fun _ => True) E t) X) as Y.
    now rewrite R2 in Y. }
  unfold bind at 1 3. rewrite !new_split. pose proof (fun H => no_alloc _ _ w2 frame_two H) as Hw3.
  unfold bind at 1 3. destruct (two_allocs w2) as [[[]| | |] w3]; try reflexivity. cbn [ret snd] in *.
  assert (S1 : slots_ok (length l) w3 (mkB (N.max 1 h1) [] tg)) by (apply slots_fresh; [destruct H1; [left; auto|right; auto]|lia]).
  assert (S2 : slots_ok (length l) w3 (mkB (N.max 1 h2) [] tg)) by (apply slots_fresh; [destruct H2; [left; auto|right; auto]|lia]).
  pose proof (same_appends E t cp n l (mkB (N.max 1 h1) [] tg) (mkB (N.max 1 h2) [] tg) w3 (conj eq_refl eq_refl) S1 S2) as (Hw & Ho).
  unfold bind. destruct (append_stores E t cp n (mkB (N.max 1 h1) [] tg) l w3) as [o1 w4], (append_stores E t cp n (mkB (N.max 1 h2) [] tg) l w3) as [o2 w5]. cbn [fst snd] in *. subst w5.
  destruct o1 as [[b1|]| | |], o2 as [[b2|]| | |]; try contradiction; try reflexivity. destruct Ho as ((-> & ->) & _). reflexivity.
Qed.

Lemma casync_is_csn E argv os w : extraction argv os -> store_opts os <> [] -> e_getenv E (bs "CSN_KCAPI_DRIVER") = None ->
  (w_alloc w = [] \/ (length (store_opts os) <= casync_slots argv)%nat) ->
  main E argv w = main E (as_csn argv os) w.
Proof.
  intros HX Hs He Hw. rewrite !main_init. enough (G : init E argv w = init E (as_csn argv os) w) by (unfold bind; now rewrite G).
  pose proof HX as (Hn & _). unfold init. unfold as_csn at 1 2. cbn [nth]. change (beq (basename (bs "csn")) (bs "csn")) with true. cbv iota.
  replace (beq (basename (nth 0 argv [])) (bs "csn")) with false.
  2:{ symmetry. apply beq_neq. apply beq_eq in Hn. rewrite Hn. discriminate. }
  rewrite Hn, (casync_extract E argv os w HX). unfold as_csn. rewrite csn_extract by assumption. apply extract_hint; [destruct Hw; [now left|right; lia]|right; lia].
Qed.

(** ** The environment variables are read nowhere else. *)
Definition same {A} (m1 m2 : M A) : Prop := forall w, m1 w = m2 w.
Lemma same_refl A (m : M A) : same m m. Proof. intros w. reflexivity. Qed.
Lemma same_bind A B (m1 m2 : M A) (k1 k2 : A -> M B) : same m1 m2 -> (forall a, same (k1 a) (k2 a)) -> same (bind m1 k1) (bind m2 k2).
Proof. intros H1 H2 w. unfold bind. rewrite H1. destruct (m2 w) as [[a| | |] w1]; auto. apply H2. Qed.
Create HintDb same.
Ltac sm := intros; cbv zeta; cbn beta iota; match goal with
  | |- same ?x ?x => apply same_refl
  | |- same (bind _ _) (bind _ _) => apply same_bind; [sm|intros; sm]
  | |- same (match ?x with _ => _ end) (match ?y with _ => _ end) => first [constr_eq x y | change y with x]; destruct x eqn:?; sm
  | |- _ => first [solve [auto with same nocore] | solve [intros w; reflexivity] | idtac]
  end.
Section Vars.
Variables (v : option bytes) (E : env).
Notation E' := (with_driver v E).

Section Scan.
Context {A : Type}.
Variable cb : N -> N -> bytes -> A -> M (bool * A).
Lemma same_scan_buf : forall fuel buf st, same (scan_buf cb E' fuel buf st) (scan_buf cb E fuel buf st).
Proof. induction fuel as [|fuel IH]; intros buf st; cbn [scan_buf]; [apply same_refl|]. sm. Qed.
Lemma same_scan_reads : forall fuel ino pos st, same (scan_reads cb E' fuel ino pos st) (scan_reads cb E fuel ino pos st).
Proof. induction fuel as [|fuel IH]; intros ino pos st; cbn [scan_reads]; [apply same_refl|]. pose proof same_scan_buf. sm. Qed.
Lemma same_scan_fd ino p a : same (chunker_scan_fd cb E' ino p a) (chunker_scan_fd cb E ino p a).
Proof. unfold chunker_scan_fd. apply same_bind; [sm|]. intros c. apply same_bind; [intros w; apply same_scan_reads|]. sm. Qed.
End Scan.
Lemma same_iterate A (cb1 cb2 : N -> N -> bytes -> A -> M (bool * A)) : (forall o l i a, same (cb1 o l i a) (cb2 o l i a)) ->
  forall ino p n k i last a, same (iterate_loop cb1 ino p n k i last a) (iterate_loop cb2 ino p n k i last a).
Proof. intros H ino p n. induction k as [|k IH]; intros i last a; cbn [iterate_loop]; [apply same_refl|]. sm. Qed.
Hint Resolve same_scan_fd : same.
Lemma same_sideload ls ip : same (store_sideload_index E' ls ip) (store_sideload_index E ls ip).
Proof. unfold store_sideload_index. change (e_open E' ip) with (e_open E ip). sm. Qed.
Lemma same_scan ls : same (store_scan E' ls) (store_scan E ls).
Proof. unfold store_scan. sm. Qed.
Hint Resolve same_sideload same_scan : same.
Lemma same_local_loop : forall fuel ls id out, same (local_get_loop E' fuel ls id out) (local_get_loop E fuel ls id out).
Proof. induction fuel as [|fuel IH]; intros ls id out; cbn [local_get_loop]; [apply same_refl|]. sm. Qed.
Lemma same_local_get ls id out : same (store_local_get_chunk E' ls id out) (store_local_get_chunk E ls id out).
Proof. intros w. apply same_local_loop. Qed.
Lemma same_local_new path ip cp : same (store_local_new E' path ip cp) (store_local_new E path ip cp).
Proof. unfold store_local_new. change (e_open E' path) with (e_open E path). sm. Qed.
Lemma same_deliver code fin : forall segs r, same (curl_deliver E' code segs fin r) (curl_deliver E code segs fin r).
Proof. induction segs as [|s segs IH]; intros r; cbn [curl_deliver]; [apply same_refl|]. sm. Qed.
Lemma same_perform url r : same (curl_easy_perform E' url r) (curl_easy_perform E url r).
Proof. intros w. unfold curl_easy_perform. cbv zeta. change (e_server E') with (e_server E). apply same_bind; [apply same_deliver|]. sm. Qed.
Hint Resolve same_perform : same.
Lemma same_retried url : forall rem wait r, same (retried_curl_easy_perform E' url rem wait r) (retried_curl_easy_perform E url rem wait r).
Proof. induction rem as [|rem IH]; intros wait r; cbn [retried_curl_easy_perform]; [apply same_refl|]. sm. Qed.
Hint Resolve same_retried : same.
Lemma same_http_get hs id out : same (store_http_get_chunk E' hs id out) (store_http_get_chunk E hs id out).
Proof. unfold store_http_get_chunk. sm. Qed.
Lemma mentions_skipn n a : mentions (skipn n a) -> mentions a.
Proof. intros (x & y & H). exists (firstn n a ++ x), y. rewrite <- app_assoc, <- H. symmetry. apply firstn_skipn. Qed.
Lemma mentions_firstn n a : mentions (firstn n a) -> mentions a.
Proof. intros (x & y & H). exists x, (y ++ skipn n a). rewrite !app_assoc. rewrite <- (app_assoc x), <- H. symmetry. apply firstn_skipn. Qed.
Hint Resolve mentions_skipn mentions_firstn : same.
Lemma same_keyspec spec : ~ mentions spec -> same (Encrypt.encrypt_parse_keyspec E' spec) (Encrypt.encrypt_parse_keyspec E spec).
Proof.
  intros Hm. unfold Encrypt.encrypt_parse_keyspec, Encrypt.encrypt_parse_keyspec_buf. apply same_bind; [|sm]. destruct (Encrypt.keyspec_src spec) as [s|x|x|] eqn:Es; [sm| |sm..].
  cbn [with_driver e_getenv]. destruct (beq x DRIVER) eqn:Ex; [|sm]. exfalso. apply beq_eq in Ex. subst x. apply Hm. unfold Encrypt.keyspec_src in Es.
  destruct (startswith spec (bs "key:")); [discriminate|]. destruct (startswith spec (bs "env:")); [|destruct (startswith spec (bs "file:")); discriminate].
  injection Es as Es. exists (firstn 4 spec), []. rewrite app_nil_r, <- Es. symmetry. apply firstn_skipn.
Qed.
Lemma same_params : forall fuel args key, ~ mentions args -> same (store_handle_params E' fuel args key) (store_handle_params E fuel args key).
Proof.
  induction fuel as [|fuel IH]; intros args key Hm; cbn [store_handle_params]; [apply same_refl|]. destruct args as [|c args]; [apply same_refl|]. cbv zeta.
  destruct (startswith _ (bs "encrypt=")); [|apply same_refl]. apply same_bind.
  - apply same_keyspec. intros H. apply mentions_skipn in H. apply Hm. destruct (strchr (c :: args) 44); [apply mentions_firstn in H|]; exact H.
  - intros [k|]; [|apply same_refl]. sm. apply IH. intros H. now apply mentions_skipn in H.
Qed.
Lemma same_http_new url : ~ mentions url -> same (store_http_new E' url) (store_http_new E url).
Proof.
  intros Hm. unfold store_http_new. change (e_http_ok E') with (e_http_ok E). sm. apply same_params. intros H. now apply mentions_skipn in H.
Qed.
Hint Resolve same_local_get same_local_new same_http_get : same.
Lemma same_get s t id out : same (store_get_chunk E' s t id out) (store_get_chunk E s t id out).
Proof. unfold store_get_chunk. sm. Qed.
Hint Resolve same_get : same.
Lemma same_chain : forall l i t id out, same (chain_loop E' i l t id out) (chain_loop E i l t id out).
Proof. induction l as [|s l IH]; intros i t id out; cbn [chain_loop]; [apply same_refl|]. sm. Qed.
Lemma same_chain_get l t id out : same (store_chain_get_chunk E' l t id out) (store_chain_get_chunk E l t id out).
Proof. apply same_chain. Qed.
Hint Resolve same_chain_get : same.
Lemma vars_append t cp n b a : ~ mentions a -> same (append_store_from_arg E' t cp n b a) (append_store_from_arg E t cp n b a).
Proof.
  intros Hm. unfold append_store_from_arg. apply same_bind; [|sm]. destruct (classify_arg t a) as [|url|path ip] eqn:Ec; [sm| |sm].
  apply same_bind; [|sm]. apply same_http_new. unfold classify_arg in Ec. destruct (beq a t); [discriminate|]. destruct (startswith a (bs "http")); [now injection Ec as <-|].
  destruct (strchr a 58); discriminate.
Qed.
Lemma same_opts t cp n : forall os b, Forall (fun a => ~ mentions a) (store_opts os) -> same (casync_opts E' t cp n b os) (casync_opts E t cp n b os).
Proof.
  induction os as [|o os IH]; intros b H; cbn [casync_opts]; [apply same_refl|]. destruct o as [|a| |]; [sm| |now apply IH|sm].
  cbn [store_opts flat_map app] in H. inversion H as [|? ? H1 H2]; subst. apply same_bind; [now apply vars_append|]. intros [b'|]; [now apply IH|sm].
Qed.
Lemma same_casync argv : Forall (fun a => ~ mentions a) (store_opts (fst (getopt_all (skipn 1 argv)))) -> same (casync E' argv) (casync E argv).
Proof.
  intros H. unfold casync. change (e_open E') with (e_open E). cbv zeta. destruct (getopt_all (skipn 1 argv)) as [os ns]. cbn [fst] in H. pose proof (fun t cp n b => same_opts t cp n os b H) as X. sm.
Qed.
Lemma same_fetch n o l id st : same (entry_fetch_write E' n o l id st) (entry_fetch_write E n o l id st).
Proof. unfold entry_fetch_write. sm. Qed.
Hint Resolve same_fetch : same.
Lemma same_entry n o l id st : same (entry_cb E' n o l id st) (entry_cb E n o l id st).
Proof. unfold entry_cb. sm. Qed.
Lemma same_run su : same (run_sync E' su) (run_sync E su).
Proof. unfold run_sync. apply same_bind; [|sm]. apply same_iterate. apply same_entry. Qed.
End Vars.
(** casync does not look at the variable. *)
Lemma casync_ignores_driver v E argv w : beq (basename (nth 0 argv [])) (bs "csn") = false -> Forall (fun a => ~ mentions a) (cmd_stores argv) ->
  main (with_driver v E) argv w = main E argv w.
Proof.
  intros H Hm. rewrite !main_init. unfold cmd_stores, is_csn in Hm. rewrite H in Hm.
  enough (G : init (with_driver v E) argv w = init E argv w) by (unfold bind; rewrite G; destruct (init E argv w) as [[[su| |]| | |] w1]; [apply same_run|reflexivity..]).
  unfold init. rewrite H. destruct (beq _ (bs "casync")); [|reflexivity]. now apply same_casync.
Qed.
Lemma not_csn argv : beq (basename (nth 0 argv [])) (bs "casync") = true -> beq (basename (nth 0 argv [])) (bs "csn") = false.
Proof. intros Hn. apply beq_neq. apply beq_eq in Hn. rewrite Hn. discriminate. Qed.
Lemma casync_is_plain_csn E argv os w : extraction argv os -> store_opts os <> [] -> Forall (fun a => ~ mentions a) (store_opts os) ->
  (w_alloc w = [] \/ (length (store_opts os) <= casync_slots argv)%nat) ->
  main E argv w = main (with_driver None E) (as_csn argv os) w.
Proof.
  intros HX Hs Hm Hw. pose proof HX as (Hn & _ & ns & Hg & _). rewrite <- (casync_ignores_driver None).
  - now apply casync_is_csn.
  - now apply not_csn.
  - unfold cmd_stores, is_csn. now rewrite (not_csn _ Hn), Hg.
Qed.
