(** Chunks that a local store holds are not requested from later stores (C81). *)
From Coq Require Import Sorting.Permutation Sorting.Sorted.
From Verif Require Import Base Lib Utils Sha Chunker Caibx Index StoreLocal Target StoreHttp Chain Ui MainProg
  SpecBasic SpecEnv SpecChunker SpecStore SpecHttp SpecCaibx SpecMain SpecRun SpecProgress SpecDelta
  PfUtils PfBasic PfIO PfRead PfChunker PfChunkProps PfKeyspec PfIndex PfFrame PfLocal PfLocal2 PfHttp PfHttp2 PfCaibx PfTarget PfChain PfMain PfMain2 PfSetup PfRun.
Ltac Zify.zify_post_hook ::= Z.div_mod_to_equations.
Local Open Scope N_scope.

Section AskedOf.
Variable (j : nat).
Lemma asked_of_app a c : asked_of j (a ++ c) = asked_of j a ++ asked_of j c.
Proof. apply flat_map_app. Qed.
Lemma asked_of_none (P : tev -> Prop) tr : (forall p id, ~ P (TQuery p id)) -> Forall P tr -> asked_of j tr = [].
Proof. intros H. induction 1 as [|ev tr He _ IH]; [reflexivity|]. cbn [asked_of flat_map]. fold (asked_of j tr). rewrite IH. destruct ev; try reflexivity. elim (H _ _ He). Qed.
End AskedOf.

Section Delta.
Variables (E : env) (k : nat).
Hypothesis (HE : env_ok E) (Hsv : server_ok E).

(** ** The store *)
(** Its file is [sino] with the contents [g]; [ids] are the chunks it is known to hold. *)
Variables (sino : nat) (g : bytes) (ids : bytes -> Prop).
Hypothesis (Hg : blen g < OFF_LIMIT).
Definition sound (e : entry) : Prop := 0 < en_len e <= BUF_SIZE /\ en_start e + en_len e <= blen g /\ e_H E (slice_N (en_start e) (en_len e) g) = en_id e.
Definition stock (x : index) : Prop :=
  idx_ok x /\ (forall e, In e (ix_entries x) -> sound e) /\ forall id, ids id -> exists e, In e (ix_entries x) /\ en_id e = id.
Definition stocked (ls : lstore) : Prop := ls_ino ls = sino /\ stock (ls_idx ls).

Lemma stock_perm x x' : Permutation (ix_entries x) (ix_entries x') -> idx_ok x' -> stock x -> stock x'.
Proof.
  intros P Hx (_ & A & B). split; [exact Hx|]. split.
  - intros e He. apply A. eapply Permutation_in; [symmetry; exact P|exact He].
  - intros id Hid. destruct (B id Hid) as (e & C & D). exists e. split; [eapply Permutation_in; eauto|exact D].
Qed.
Lemma stock_flags x pos e : nth_error (ix_entries x) pos = Some e -> stock x -> stock (index_or_flags x pos INDEX_FLAG_VALIDATED).
Proof.
  intros Hn (Hx & A & B). destruct (or_flags_spec x pos e Hn Hx) as (C & _ & D). split; [exact C|]. split.
  - intros e' He'. destruct (D e' He') as [F| ->]; [apply A, F|]. apply (A e). eapply nth_error_In; eauto.
  - intros id Hid. destruct (B id Hid) as (e1 & F & G). unfold index_or_flags. rewrite Hn. cbn [ix_entries]. set (e2 := mkEntry _ _ _ _).
    apply In_nth_error in F as (j & Hj). destruct (Nat.eq_dec j pos) as [->|Hne].
    + exists e2. split; [|unfold e2; cbn; congruence]. apply (nth_error_In _ pos). rewrite nth_error_upd_nth, Nat.eqb_refl. assert (pos < length (ix_entries x))%nat as L by (apply nth_error_Some; congruence).
      apply Nat.ltb_lt in L. now rewrite L.
    + exists e1. split; [|exact G]. apply (nth_error_In _ j). rewrite nth_error_upd_nth. destruct (Nat.eqb_spec j pos); [contradiction|exact Hj].
Qed.

Lemma wp_get_stocked ls id out w : w_files w sino = g -> stocked ls -> blen out = BUF_SIZE -> error_free (w_io w) -> kc_clean w ->
  wp (store_local_get_chunk E ls id out) (fun x w' => let '(r, _, ls') := x in stocked ls' /\ exists m, r = Some m /\ (ids id -> 0 < m)) (fun _ _ => True) w.
Proof.
  intros Hf (Hi & Hx & A & B) Hl He Hc. destruct HE as (HH & Hq & Hb & Hz). unfold store_local_get_chunk.
  change (wp (local_get_loop E (S (length (w_io w))) ls id out) (fun x w' => let '(r, _, ls') := x in stocked ls' /\ exists m, r = Some m /\ (ids id -> 0 < m)) (fun _ _ => True) w).
  apply wp_get_read with (f := g); auto.
  - congruence.
  - intros r out' x' An Hx' P ev _ _. split.
    + split; [exact Hi|]. cbn [set_idx ls_idx]. eapply stock_perm; eauto. split; [exact Hx|auto].
    + remember r as r0 eqn:Er. destruct An as [An|e A1 A2 A3|e n A1 A2 A3 A4 A5 A6|e A1 A2 A3 A4 A5].
      * exists 0. split; [reflexivity|]. intros Hid. destruct (B id Hid) as (e & C & D). elim (An e C D).
      * destruct (A e A1) as (C & _). lia.
      * destruct (A e A1) as (C & D & _). destruct A6 as [A6|[A6|A6]]; [contradiction|lia|lia].
      * destruct (A e A1) as (C & _). exists (en_len e). split; [reflexivity|lia].
  - intros x' pos e ev Hx' P N1 N2 Nv Ll Lr Hs Hbl. apply wp_bind.
    assert (He' : In e (ix_entries (ls_idx ls))) by (eapply Permutation_in; [symmetry; exact P|eapply nth_error_In; eauto]).
    destruct (A e He') as (S1 & S2 & S3).
    apply wp_chunk_id with (b := false); [discriminate| |auto].
    intros kk kv actual _ _ Hcl. rewrite (Hcl Hc), S3, N2, beq_refl. apply wp_ret. split.
    + split; [exact Hi|]. cbn [set_idx ls_idx]. eapply stock_flags; [exact N1|]. eapply stock_perm; eauto. split; [exact Hx|auto].
    + exists (en_len e). split; [reflexivity|lia].
Qed.

(** ** Any store *)
Definition hk (s : store) : Prop := match s with SHttp hs => http_ok hs | _ => True end.
Lemma wp_len_local id : forall fuel ls out w, wp (local_get_loop E fuel ls id out) (fun x _ => let '(_, out', _) := x in length out' = length out) (fun _ _ => True) w.
Proof.
  induction fuel as [|fuel IH]; intros ls out w; cbn [local_get_loop]; [exact I|].
  apply wp_bind, wp_any; [|auto]. intros [[pos|] x] w1; cbn zeta iota; [|apply wp_ret; reflexivity].
  apply wp_bind, wp_any; [|auto]. intros e w2. destruct (blen out <? en_len e) eqn:El; [apply wp_ret; reflexivity|].
  assert (Rest : forall ok data w3, blen data <= en_len e -> wp (let out := overlay data out in
          if negb ok then ret (None, out, set_idx ls x) else
          if negb (N.land (en_flags e) INDEX_FLAG_VALIDATED =? 0) then ret (Some (en_len e), out, set_idx ls x)
          else
            actual <- chunk_calculate_id E (firstn (N.to_nat (en_len e)) out) ;;
            if beq id actual then
              ret (Some (en_len e), out, set_idx (set_idx ls x) (index_or_flags x pos INDEX_FLAG_VALIDATED))
            else
              x <- index_cleanup x ;;
              '(ok, ls) <- store_scan E (set_idx (set_idx ls x) x) ;;
              if negb (ok : bool) then ret (None, out, ls)
              else local_get_loop E fuel ls id out) (fun x _ => let '(_, out', _) := x in length out' = length out) (fun _ _ => True) w3).
  { intros ok data w3 Hd. cbv zeta. assert (L : length (overlay data out) = length out) by (apply length_overlay; unfold blen in *; lia).
    destruct (negb ok); [apply wp_ret; exact L|]. destruct (negb _); [apply wp_ret; exact L|]. apply wp_bind, wp_any; [|auto]. intros a w4. destruct (beq id a); [apply wp_ret; exact L|].
    apply wp_bind, wp_any; [|auto]. intros x1 w5. apply wp_bind, wp_any; [|auto]. intros [[|] ls1] w6; cbn [negb]; [|apply wp_ret; exact L].
    eapply wp_mono; [apply IH| |auto]. intros [[r out'] ls'] w7 X. congruence. }
  apply wp_bind. cbn [set_idx ls_ino]. apply wp_pread.
  - intros ev _ _ _ Hd _. apply Rest. rewrite Hd. lia.
  - intros ev n _ Hn Hln _. apply Rest. unfold blen. rewrite Hln. lia.
  - auto.
Qed.
Lemma wp_len_target t id out w : wp (target_get_chunk E t id out) (fun x _ => let '(_, out', t') := x in length out' = length out /\ t_ino t' = t_ino t) (fun _ _ => True) w.
Proof.
  unfold target_get_chunk. destruct (negb (t_queryable t)); [apply wp_ret; auto|]. apply wp_bind, wp_any; [|auto]. intros [[pos|] x] w1; cbn zeta iota; [|apply wp_ret; auto].
  apply wp_bind, wp_any; [|auto]. intros e w2. destruct (blen out <? en_len e) eqn:El; [apply wp_ret; auto|]. apply wp_bind, wp_pread; auto.
  - intros ev _ _ _ Hd _. cbn [negb]. apply wp_ret. split; [apply length_overlay; unfold blen in *; lia|reflexivity].
  - intros ev n _ Hn Hln _. cbn [negb]. apply wp_ret. split; [apply length_overlay; unfold blen in *; lia|reflexivity].
Qed.

Definition calm (w : world) : Prop := error_free (w_io w) /\ kc_clean w /\ w_files w sino = g.
Lemma calm_quiet (S0 : nat -> Prop) (P : tev -> Prop) w w' : ~ S0 sino -> quiet S0 P w w' -> calm w -> calm w'.
Proof. intros HS (A & B & _ & C & _) (D & F & G). split; [eapply error_free_suffix; eauto|]. split; [auto|]. rewrite A; auto. Qed.

Lemma wp_store_d s t id out w : length id = 32%nat -> hk s ->
  wp (store_get_chunk E s t id out) (fun x w' => let '(r, out', s', t') := x in
       quiet0 w w' /\ length out' = length out /\ hk s' /\ t_ino t' = t_ino t /\
       forall ls, s = SLocal ls -> stocked ls -> blen out = BUF_SIZE -> calm w -> exists ls' m, s' = SLocal ls' /\ stocked ls' /\ r = Some m /\ (ids id -> 0 < m))
     (fun _ w' => quiet0 w w') w.
Proof.
  intros Lid Hs. pose proof HE as (HH & Hq & Hb & Hz). apply (wp_frame none store_ev); [apply frame_store_get; intros; exact I|].
  unfold store_get_chunk. destruct s as [ls|hs|]; apply wp_bind.
  - assert (St : wp (store_local_get_chunk E ls id out) (fun x w' => let '(r, _, ls') := x in
       stocked ls -> blen out = BUF_SIZE -> calm w -> stocked ls' /\ exists m, r = Some m /\ (ids id -> 0 < m)) (fun _ _ => True) w).
    { unfold wp. assert (G := wp_get_stocked ls id out w). unfold wp in G. destruct (store_local_get_chunk E ls id out w) as [[[[r out'] ls']| | |] w']; auto.
      intros A B (C & D & F). auto. }
    assert (Ln : wp (store_local_get_chunk E ls id out) (fun x _ => let '(_, out', _) := x in length out' = length out) (fun _ _ => True) w) by apply (wp_len_local id).
    eapply wp_mono; [apply (wp_conj _ _ _ _ _ _ _ Ln St)| |auto]. intros [[r out'] ls'] w' (A & B). apply wp_ret. intros Q. split; [exact Q|]. split; [exact A|]. split; [exact I|]. split; [reflexivity|].
    intros ls0 X S1 S2 S3. injection X as <-. destruct (B S1 S2 S3) as (B1 & m & B2). exists ls', m. split; [reflexivity|]. auto.
  - eapply wp_mono; [apply (wp_http_get E false hs id out w Hz Hsv Hs Lid ltac:(discriminate))| |auto].
    intros [[r out'] hs'] w' ((A & _) & B & C & _). apply wp_ret. intros Q. split; [exact Q|]. split; [exact A|]. split; [exact B|]. split; [reflexivity|]. discriminate.
  - eapply wp_mono; [apply (wp_len_target t id out w)| |auto]. intros [[r out'] t'] w' (A & B). apply wp_ret. intros Q. split; [exact Q|]. split; [exact A|]. split; [exact I|]. split; [exact B|]. discriminate.
Qed.

(** ** The chain *)
Definition kept (l : list substore) (j : nat) : Prop := (forall id, ~ ids id) \/ exists ls, nth_error l j = Some (mkSub (SLocal ls) true) /\ stocked ls.
Definition guard (i : nat) (l : list substore) (id : bytes) : Prop := ((i <= k)%nat /\ kept l (k - i)) \/ ((k < i)%nat /\ ~ ids id).
Lemma kept_cons ss l j : kept l j -> kept (ss :: l) (S j).
Proof. intros [H|H]; [now left|right; exact H]. Qed.
Lemma kept_tail ss l j : kept (ss :: l) (S j) -> kept l j.
Proof. intros [H|H]; [now left|right; exact H]. Qed.
Lemma kept_head ss l : kept (ss :: l) 0 -> (forall id, ~ ids id) \/ exists ls, ss = mkSub (SLocal ls) true /\ stocked ls.
Proof. intros [H|(ls & H & H2)]; [now left|right]. injection H as ->. eauto. Qed.
Definition hks (l : list substore) : Prop := Forall (fun ss => hk (ss_store ss)) l.
(** At most one request to every store from [i] on, for [id], and none after store [k] if [k] has the chunk. *)
Definition asks (i : nat) (id : bytes) (tr : list tev) : Prop :=
  forall j, asked_of j tr = [] \/ (asked_of j tr = [id] /\ (i <= j)%nat /\ ((k < j)%nat -> ~ ids id)).

Lemma chain_d id : length id = 32%nat -> forall l i t out w,
  hks l -> blen out = BUF_SIZE -> calm w -> guard i l id ->
  wp (chain_loop E i l t id out) (fun x w' => let '(r, out', l', t') := x in
       quiet none (chain_ev id) w w' /\ length out' = length out /\ hks l' /\ t_ino t' = t_ino t /\ ((i <= k)%nat -> kept l' (k - i)) /\
       exists tr, w_trace w' = tr ++ w_trace w /\ asks i id tr)
     (fun _ w' => exists tr, w_trace w' = tr ++ w_trace w /\ asks i id tr) w.
Proof.
  intros Lid. induction l as [|ss l IH]; intros i t out w Hh Hl Hc Hgd; cbn [chain_loop].
  - apply wp_ret. split; [apply quiet_refl|]. split; [reflexivity|]. split; [constructor|]. split; [reflexivity|]. split.
    { intros Hi. destruct Hgd as [(_ & H)|(H & _)]; [exact H|lia]. }
    exists []. split; [reflexivity|]. intros j. now left.
  - inversion Hh as [|? ? H1 H2]; subst.
    assert (Hg' : i <> k -> guard (S i) l id).
    { intros Hik. destruct Hgd as [(Hi & A)|(Hi & A)]; [left; split; [lia|]|right; split; [lia|exact A]]. replace (k - i)%nat with (S (k - S i)) in A by lia. eapply kept_tail; eauto. }
    assert (Hnone : (forall d, ~ ids d) -> guard (S i) l id).
    { intros N. destruct (Nat.le_gt_cases (S i) k) as [Hi|Hi]; [left; split; [exact Hi|now left]|right; split; [lia|apply N]]. }
    destruct (ss_active ss) eqn:Ea; cbn [negb].
    2:{ assert (Hik : i = k -> forall d, ~ ids d).
        { intros ->. destruct Hgd as [(_ & A)|(A & _)]; [|lia]. rewrite Nat.sub_diag in A. destruct (kept_head _ _ A) as [B|(ls & -> & _)]; [exact B|discriminate]. }
        assert (Hg2 : guard (S i) l id) by (destruct (Nat.eq_dec i k) as [Heq|Hne]; auto).
        assert (Wk : forall tr, asks (S i) id tr -> asks i id tr).
        { intros tr H j. destruct (H j) as [X|(X & Y & Z)]; [now left|right]. split; [exact X|]. split; [lia|exact Z]. }
        apply wp_bind. eapply wp_mono; [apply (IH (S i) t out w); auto| |].
        - intros [[[r out'] l'] t'] w' (A & B & C & D & F & tr & T1 & T2). apply wp_ret. split; [exact A|]. split; [exact B|].
          split; [constructor; [exact H1|exact C]|]. split; [exact D|]. split.
          { intros Hi. destruct (Nat.eq_dec i k) as [Heq|Hne]; [left; now apply Hik|]. replace (k - i)%nat with (S (k - S i)) by lia. apply kept_cons, F. lia. }
          exists tr. auto.
        - intros bd w' (tr & T1 & T2). exists tr. auto. }
    apply wp_bind, wp_trace, wp_bind. set (w1 := add_trace _ w).
    assert (Q1 : quiet none (chain_ev id) w w1) by (apply (frame_trace none (chain_ev id) (TQuery i id) eq_refl w)).
    assert (Hc1 : calm w1) by exact Hc.
    assert (Tr : forall w2, quiet0 w1 w2 -> exists tr, w_trace w2 = (tr ++ [TQuery i id]) ++ w_trace w /\ Forall store_ev tr).
    { intros w2 (_ & _ & _ & _ & tr & A & B). exists tr. split; [|exact B]. rewrite A. unfold w1. cbn [w_trace add_trace]. now rewrite <- app_assoc. }
    assert (Ask : forall tr, Forall store_ev tr -> asks i id (tr ++ [TQuery i id]) /\ forall j, asked_of j (tr ++ [TQuery i id]) <> [] -> j = i).
    { intros tr Htr.
      assert (Z : forall j, asked_of j (tr ++ [TQuery i id]) = if Nat.eqb i j then [id] else []).
      { intros j. rewrite asked_of_app, (asked_of_none j store_ev) by auto. cbn. now destruct (Nat.eqb i j). }
      split; intros j; rewrite Z; destruct (Nat.eqb_spec i j) as [->|]; auto; [right|congruence]. split; [reflexivity|]. split; [lia|]. intros Hk. destruct Hgd as [(Hi & _)|(_ & A)]; [lia|exact A]. }
    eapply wp_mono; [apply (wp_store_d (ss_store ss) t id out w1 Lid H1)| |].
    2:{ intros bd w' Q. destruct (Tr _ Q) as (tr & A & B). exists (tr ++ [TQuery i id]). split; [exact A|]. apply (Ask _ B). }
    intros [[[r out'] s'] t'] w0' (Q & Lo & Hs' & Hino & Tk0). apply wp_bind, wp_trace. set (w' := add_trace _ w0').
    assert (Qw : quiet none (chain_ev id) w w').
    { eapply quiet_trans; [exact Q1|]. eapply quiet_trans; [apply quiet0_chain; exact Q|]. apply (frame_trace none (chain_ev id) (TAnswer i r) Logic.I w0'). }
    destruct (Tr _ Q) as (tr0 & Tr1 & Tr2). destruct (Ask _ Tr2) as (Ak1 & Ak2). set (trh := TAnswer i r :: tr0 ++ [TQuery i id]).
    assert (Th : w_trace w' = trh ++ w_trace w) by (unfold w', trh; cbn [w_trace add_trace app]; now rewrite Tr1).
    assert (Ah : forall j, asked_of j trh = asked_of j (tr0 ++ [TQuery i id])) by reflexivity.
    assert (Hc' : calm w') by (apply (calm_quiet none _ _ _ (fun x => x) Qw Hc)).
    assert (Tk : i = k -> (forall d, ~ ids d) \/ exists ls' m, s' = SLocal ls' /\ stocked ls' /\ r = Some m /\ (ids id -> 0 < m)).
    { intros Heq. destruct Hgd as [(_ & A1)|(A1 & _)]; [|lia]. rewrite Heq, Nat.sub_diag in A1. destruct (kept_head _ _ A1) as [B|(ls & B & C)]; [now left|right]. apply (Tk0 ls); auto. now rewrite B. }
    assert (Cont : forall a, (i = k -> (forall d, ~ ids d) \/ a = true /\ ~ ids id) ->
       wp (bind (chain_loop E (S i) l t' id out') (fun '(r, out, l', t) => ret (r, out, mkSub s' a :: l', t)))
         (fun x w2 => let '(r, out2, l', t2) := x in
           quiet none (chain_ev id) w w2 /\ length out2 = length out /\ hks l' /\ t_ino t2 = t_ino t /\ ((i <= k)%nat -> kept l' (k - i)) /\
           exists tr, w_trace w2 = tr ++ w_trace w /\ asks i id tr)
         (fun _ w2 => exists tr, w_trace w2 = tr ++ w_trace w /\ asks i id tr) w').
    { intros a Hik. assert (Hg2 : guard (S i) l id).
      { destruct (Nat.eq_dec i k) as [Heq|Hne]; [|now apply Hg']. destruct (Hik Heq) as [N|(_ & N)]; [now apply Hnone|]. right. split; [lia|exact N]. }
      assert (Two : forall w2, (exists tr, w_trace w2 = tr ++ w_trace w' /\ asks (S i) id tr) -> exists tr, w_trace w2 = tr ++ w_trace w /\ asks i id tr).
      { intros w2 (tr & T1 & T2). exists (tr ++ trh). split; [now rewrite T1, Th, app_assoc|]. intros j. rewrite asked_of_app, Ah.
        destruct (T2 j) as [X|(X & Y & Z)]; rewrite X.
        - cbn [app]. apply Ak1.
        - destruct (Ak1 j) as [U|(U & _)]; [|exfalso; assert (j = i) by (apply Ak2; rewrite U; discriminate); lia]. rewrite U. right. cbn. split; [reflexivity|]. split; [lia|exact Z]. }
      apply wp_bind. eapply wp_mono; [apply (IH (S i) t' out' w')| |]; auto.
      - unfold blen in *. now rewrite Lo.
      - intros [[[r2 out2] l2] t2] w2 (A & B & C & D & G & T). apply wp_ret. split; [eapply quiet_trans; eauto|]. split; [congruence|]. split; [constructor; [exact Hs'|exact C]|].
        split; [congruence|]. split; [|now apply Two].
        intros Hi. destruct (Nat.eq_dec i k) as [Heq|Hne].
        + destruct (Hik Heq) as [N|(Ha1 & _)]; [now left|]. destruct (Tk Heq) as [N|(ls' & m & X & Y & _)]; [now left|]. rewrite Heq, Nat.sub_diag. right. exists ls'. cbn. now rewrite X, Ha1.
        + replace (k - i)%nat with (S (k - S i)) by lia. apply kept_cons, G. lia. }
    destruct r as [n|]; [destruct (0 <? n) eqn:En|].
    + apply wp_ret. split; [exact Qw|]. split; [exact Lo|]. split; [constructor; [exact Hs'|exact H2]|]. split; [exact Hino|]. split.
      { intros Hi. destruct (Nat.eq_dec i k) as [Heq|Hne].
        - destruct (Tk Heq) as [N|(ls' & m & X & Y & _)]; [now left|]. rewrite Heq, Nat.sub_diag. right. exists ls'. cbn. now rewrite X.
        - destruct Hgd as [(_ & A)|(A1 & _)]; [|lia]. replace (k - i)%nat with (S (k - S i)) in * by lia. eapply kept_cons, kept_tail; eauto. }
      exists trh. split; [exact Th|]. exact Ak1.
    + apply Cont. intros Heq. destruct (Tk Heq) as [N|(_ & m & _ & _ & A & B)]; [now left|right]. split; [reflexivity|]. injection A as ->. intros Hid. specialize (B Hid). lia.
    + apply Cont. intros Heq. destruct (Tk Heq) as [N|(_ & m & _ & _ & A & _)]; [now left|discriminate].
Qed.

(** ** The entries *)
Variables (w0 : world) (tino : nat) (f : bytes).
Hypothesis (Hst : sino <> tino).
Definition lg (i : nat) (tr : list tev) : Prop := forall j, asked_for f i (fun x => (k < j)%nat -> ~ ids (ent_id f x)) j tr.
Lemma lg_more i i' tr : (i <= i')%nat -> lg i tr -> lg i' tr.
Proof. clear Hg Hst. intros Hi H j. destruct (H j) as (l & A & B & C). exists l. split; [exact A|]. split; [exact B|]. eapply Forall_impl; [|exact C]. intros x (X & Y). split; [lia|exact Y]. Qed.
Lemma lg_quiet i (P : tev -> Prop) tr tr' : (forall p id, ~ P (TQuery p id)) -> Forall P tr' -> lg i tr -> lg i (tr' ++ tr).
Proof. intros HP H L j. destruct (L j) as (l & A & B). exists l. rewrite asked_of_app, (asked_of_none j P) by auto. auto. Qed.
Lemma sorted_snoc l i : StronglySorted lt l -> Forall (fun x => (x < i)%nat) l -> StronglySorted lt (l ++ [i]).
Proof.
  induction 1 as [|x l H IH F]; intros Hf; cbn; [repeat constructor|]. inversion Hf; subst. constructor; [now apply IH|]. apply Forall_app. split; [exact F|]. constructor; [assumption|constructor].
Qed.
Lemma lg_asks i tr tr' : asks 0 (ent_id f i) tr' -> lg i tr -> lg (S i) (tr' ++ tr).
Proof.
  clear Hg Hst. intros A L j. destruct (L j) as (l & X & Y & Z). destruct (A j) as [B|(B & _ & C)].
  - exists l. rewrite asked_of_app, B. split; [exact X|]. split; [exact Y|]. eapply Forall_impl; [|exact Z]. intros x (U & V). split; [lia|exact V].
  - exists (l ++ [i]). rewrite asked_of_app, B. cbn [app rev]. rewrite X, map_app. split; [reflexivity|]. split.
    + apply sorted_snoc; [exact Y|]. eapply Forall_impl; [|exact Z]. intros x (U & _). exact U.
    + apply Forall_app. split; [|constructor; [auto|constructor]]. eapply Forall_impl; [|exact Z]. intros x (U & V). split; [lia|exact V].
Qed.

Definition logged (i : nat) (w : world) : Prop := exists tr, w_trace w = tr ++ w_trace w0 /\ lg i tr.
Lemma logged_quiet i (P : tev -> Prop) (S0 : nat -> Prop) w w' : (forall p id, ~ P (TQuery p id)) -> quiet S0 P w w' -> logged i w -> logged i w'.
Proof. intros HP (_ & _ & _ & _ & tr & A & B) (tr0 & C & D). exists (tr ++ tr0). split; [now rewrite A, C, app_assoc|]. eapply lg_quiet; eauto. Qed.
Lemma logged_more i i' w : (i <= i')%nat -> logged i w -> logged i' w.
Proof. intros H (tr & A & B). exists tr. split; [exact A|]. eapply lg_more; eauto. Qed.

Record DInv (i : nat) (st : mstate) (w : world) : Prop := mkDInv {
  di_calm : calm w;
  di_files : forall j, j <> tino -> w_files w j = w_files w0 j;
  di_ino : t_ino (m_target st) = tino;
  di_chain : exists l, m_store st = Some l /\ hks l /\ kept l k;
  di_buf : blen (m_buf st) = BUF_SIZE;
  di_log : logged i w }.

Definition unasked (ev : tev) : Prop := match ev with TQuery _ _ => False | _ => True end.
Lemma DInv_quiet i st w st' w' : quiet (eq tino) unasked w w' -> t_ino (m_target st') = tino -> m_store st' = m_store st -> blen (m_buf st') = BUF_SIZE -> DInv i st w -> DInv i st' w'.
Proof.
  intros Q H1 H2 H3 [D1 D2 D3 D4 D5 D6]. constructor; auto.
  - eapply calm_quiet; [|exact Q|exact D1]. congruence.
  - intros j Hj. destruct Q as (Q & _). rewrite Q by congruence. auto.
  - now rewrite H2.
  - eapply logged_quiet; [|exact Q|exact D6]. intros p id X. exact X.
Qed.
Lemma wp_add_ino t len off id w : wp (target_add_chunk E t len off id) (fun t' _ => t_ino t' = t_ino t) (fun _ _ => True) w.
Proof.
  unfold target_add_chunk. destruct (negb _); [apply wp_ret; reflexivity|]. apply wp_bind, wp_any; [|auto]. intros [[pos|] x] w1; [apply wp_ret; reflexivity|].
  apply wp_bind, wp_any; [|auto]. intros [r x'] w2. apply wp_ret. reflexivity.
Qed.

Lemma wp_progress_d m i st w : DInv i st w -> wp (entry_progress E m st) (fun r w' => fst r = true /\ DInv i (snd r) w') (fun _ w' => logged i w') w.
Proof.
  intros HU. unfold entry_progress. destruct (e_interactive E); [|apply wp_ret; auto]. cbv zeta. apply wp_bind, wp_trace, wp_ret. split; [reflexivity|].
  eapply DInv_quiet; [|..|exact HU]; try apply HU; try reflexivity.
  apply (frame_trace (eq tino) unasked (TProgress (main_percent ((m_handled st + 1) mod M32) m)) Logic.I w).
Qed.

Lemma wp_write_d m i st w off len id : DInv i st w ->
  wp (bind (target_write E (m_target st) (m_buf st) len off id) (fun '(ok, t) =>
        let st := m_set st (m_store st) t (m_last_id st) (m_resuming st) (m_buf st) in
        if negb (ok : bool) then ret (false, st) else entry_progress E m st))
     (fun r w' => if fst r then DInv i (snd r) w' else logged i w') (fun _ w' => logged i w') w.
Proof.
  intros HD. pose proof HD as [D1 D2 D3 D4 D5 D6]. apply wp_bind. apply (wp_frame (eq tino) unasked); [apply frame_target_write; auto; intros; exact Logic.I|].
  assert (Lq : forall w', quiet (eq tino) unasked w w' -> logged i w') by (intros w' Q; eapply logged_quiet; [|exact Q|exact D6]; intros p d X; exact X).
  assert (W : wp (target_write E (m_target st) (m_buf st) len off id) (fun r _ => t_ino (snd r) = tino) (fun _ _ => True) w).
  { unfold target_write. destruct (_ <? _); [exact Logic.I|]. apply wp_bind, wp_any; [|auto]. intros _ w1. apply wp_bind, wp_any; [|auto]. intros ok w2. destruct (negb ok); [apply wp_ret; exact D3|].
    apply wp_bind. eapply wp_mono; [apply wp_add_ino| |auto]. intros t' w3 X. apply wp_ret. cbn. congruence. }
  eapply wp_mono; [exact W| |].
  - intros [ok t] w' Ht Q. cbn [snd] in Ht. cbv zeta. destruct ok; cbn [negb]; [|apply wp_ret; cbn [fst]; auto].
    eapply wp_mono; [apply wp_progress_d with (i := i)| |auto].
    + eapply DInv_quiet; [exact Q|..|exact HD]; auto.
    + intros [ok st'] w2 (X & Y). cbn [fst snd] in *. now rewrite X.
  - intros bd w' _ Q. auto.
Qed.

Lemma wp_fetch_d m i st w off len : length (ent_id f i) = 32%nat -> DInv i st w ->
  wp (entry_fetch_write E m off len (ent_id f i) st) (fun r w' => if fst r then DInv (S i) (snd r) w' else logged (S i) w') (fun _ w' => logged (S i) w') w.
Proof.
  intros Lid HD. pose proof HD as [D1 D2 D3 D4 D5 D6]. unfold entry_fetch_write. set (id := ent_id f i) in *.
  assert (HW : forall st w, DInv (S i) st w -> wp (bind (target_write E (m_target st) (m_buf st) len off id) (fun '(ok, t) =>
        let st := m_set st (m_store st) t (m_last_id st) (m_resuming st) (m_buf st) in
        if negb (ok : bool) then ret (false, st) else entry_progress E m st))
     (fun r w' => if fst r then DInv (S i) (snd r) w' else logged (S i) w') (fun _ w' => logged (S i) w') w) by (intros; now apply wp_write_d).
  destruct (match m_last_id st with Some _ => _ | None => false end) eqn:El.
  - apply wp_bind, wp_ret. cbn [negb]. apply HW. destruct HD. constructor; auto. eapply logged_more; [|eassumption]. lia.
  - destruct D4 as (l & L1 & L2 & L3). rewrite L1. apply wp_bind, wp_bind. unfold store_chain_get_chunk. destruct D6 as (tr & A & B).
    assert (Lg : forall w', (exists tr2, w_trace w' = tr2 ++ w_trace w /\ asks 0 id tr2) -> logged (S i) w').
    { intros w' (tr2 & T1 & T2). exists (tr2 ++ tr). split; [now rewrite T1, A, app_assoc|]. now apply lg_asks. }
    assert (Gd : guard 0 l id) by (left; split; [lia|now rewrite Nat.sub_0_r]).
    eapply wp_mono; [apply (chain_d id Lid l 0 (m_target st) (m_buf st) w L2 D5 D1 Gd)|..]; [|intros bd w' T; now apply Lg].
    intros [[[r buf] ch] t] w' (A1 & A2 & A3 & A4 & A5 & T). pose proof (Lg _ T) as HL.
    destruct (match r with Some _ => _ | None => false end); apply wp_ret; cbn [negb]; [|apply wp_ret; exact HL].
    apply HW. constructor; cbn [m_set m_store m_target m_buf].
    + apply (calm_quiet none _ _ _ (fun x => x) A1 D1).
    + intros j Hj. destruct A1 as (A1 & _). rewrite A1 by exact (fun x => x). auto.
    + congruence.
    + exists ch. split; [reflexivity|]. split; [exact A3|]. specialize (A5 (Nat.le_0_l _)). now rewrite Nat.sub_0_r in A5.
    + unfold blen in *. now rewrite A2.
    + exact HL.
Qed.

Lemma wp_entry_d m i st w off len : length (ent_id f i) = 32%nat -> DInv i st w ->
  wp (entry_cb E m off len (ent_id f i) st) (fun r w' => if fst r then DInv (S i) (snd r) w' else logged (S i) w') (fun _ w' => logged (S i) w') w.
Proof.
  intros Lid HD. pose proof HD as [D1 D2 D3 D4 D5 D6]. assert (Up : forall i0 st0 w1, DInv i0 st0 w1 -> DInv (S i0) st0 w1) by (intros i0 st0 w1 []; constructor; auto; eapply logged_more; [|eassumption]; lia).
  unfold entry_cb. destruct (m_resuming st); [|now apply wp_fetch_d].
  destruct (BUF_SIZE <? len) eqn:El; [apply wp_ret; apply (Up _ _ _ HD)|].
  apply wp_bind. apply (wp_frame (eq tino) unasked); [apply frame_check_chunk|].
  assert (W : wp (target_check_chunk E (m_target st) (m_buf st) len off (ent_id f i)) (fun r _ => let '(_, tmp, t) := r in length tmp = length (m_buf st) /\ t_ino t = tino) (fun _ _ => True) w).
  { unfold target_check_chunk. apply wp_bind, wp_pread; auto.
    - intros ev _ _ _ Hd _. cbn [negb]. assert (L : length (overlay (slice_N off len (w_files w (t_ino (m_target st)))) (m_buf st)) = length (m_buf st)) by (apply length_overlay; unfold blen in *; lia).
      apply wp_bind, wp_any; [|auto]. intros c w2. destruct (negb _); [apply wp_ret; auto|]. apply wp_bind. eapply wp_mono; [apply wp_add_ino| |auto]. intros t' w3 X. apply wp_ret. split; [exact L|congruence].
    - intros ev n _ Hn Hln _. cbn [negb]. apply wp_ret. split; [apply length_overlay; unfold blen in *; lia|exact D3]. }
  eapply wp_mono; [exact W| |].
  - intros [[r tmp] t] w' (L & Ht) Q.
    assert (Hb : blen tmp = BUF_SIZE) by (unfold blen in *; congruence).
    destruct r as [[|]|].
    + eapply wp_mono; [apply wp_progress_d with (i := S i)| |auto].
      * apply Up. eapply DInv_quiet; [exact Q|..|exact HD]; auto.
      * intros [ok st'] w2 (X & Y). cbn [fst snd] in *. now rewrite X.
    + apply wp_fetch_d; [exact Lid|]. eapply DInv_quiet; [exact Q|..|exact HD]; auto.
    + apply wp_fetch_d; [exact Lid|]. eapply DInv_quiet; [exact Q|..|exact HD]; auto.
  - intros bd w' _ Q. apply (logged_more i); [lia|]. eapply logged_quiet; [|exact Q|exact D6]. intros p d X. exact X.
Qed.
End Delta.

(** ** How the store comes to hold its chunks *)
Lemma local_new_scan E path cp D w1 ls w2 c : files_ok w1 -> error_free (w_io w1) -> disc_of cp D -> p_max cp <= BUF_SIZE ->
  store_local_new E path None cp w1 = (Ok (Some ls), w2) -> idx_ok (ls_idx ls) -> In c (chunks cp D (w_files w1 (ls_ino ls))) ->
  stocked E (ls_ino ls) (w_files w1 (ls_ino ls)) (eq (e_H E c)) ls.
Proof.
  intros Hf He Hd Hmax H Hx Hc. assert (X : ix_entries (ls_idx ls) = scan_entries E (chunks cp D (w_files w1 (ls_ino ls)))).
  { apply (new_without_index E D cp path w1 ls w2 Hd); auto; [unfold BUF_SIZE, UINT32_MAX in *; lia|]. intros Hin. unfold error_free in He. rewrite Forall_forall in He. exact (He _ Hin). }
  set (g := w_files w1 (ls_ino ls)) in *. split; [reflexivity|]. split; [exact Hx|]. rewrite X. clear X. unfold scan_entries. split.
  - intros e He'. assert (Ts : forall l off, Forall (fun x => 0 < blen x <= BUF_SIZE) l -> Forall (fun e => 0 < en_len e <= BUF_SIZE) (map scan_entry (tiles E off l))).
    { induction l as [|x l IH]; intros off F; cbn; [constructor|]. inversion F; subst. constructor; [assumption|]. now apply IH. }
    assert (Sz : Forall (fun x => 0 < blen x <= BUF_SIZE) (chunks cp D g)).
    { apply Forall_forall. intros x Hin. pose proof (chunks_nonempty cp D g) as Ne. rewrite Forall_forall in Ne. specialize (Ne x Hin). apply in_split in Hin as (l1 & l2 & Hl). destruct (chunks_sizes _ _ _ _ _ _ Hl) as (S1 & _).
      split; [unfold blen; destruct x; [contradiction|cbn; lia]|]. unfold BUF_SIZE in *. lia. }
    specialize (Ts _ 0 Sz). rewrite Forall_forall in Ts. specialize (Ts e He'). split; [exact Ts|].
    pose proof (tiles_good E true (chunks cp D g) 0 g []) as G. rewrite app_nil_r, chunks_concat in G. specialize (G ltac:(cbn; lia) eq_refl). rewrite Forall_forall in G.
    destruct (G e He') as ([G1|G1] & G2); [|lia]. split; [exact G1|exact (eq_sym G2)] || (split; [exact G1|exact G2]).
  - intros id <-. assert (Ti : forall l off, In c l -> exists e, In e (map scan_entry (tiles E off l)) /\ en_id e = e_H E c).
    { induction l as [|x l IH]; intros off [].
      - subst x. eexists. split; [left; reflexivity|reflexivity].
      - destruct (IH (off + blen x) H0) as (e & A & B). exists e. split; [right; exact A|exact B]. }
    apply Ti, Hc.
Qed.

Lemma local_new_made E path ip cp w1 ls w2 iino p n : files_ok w1 -> error_free (w_io w1) -> ~ In false (w_alloc w1) ->
  store_local_new E path (Some ip) cp w1 = (Ok (Some ls), w2) ->
  e_open E ip = Some iino -> e_kind E iino <> KOther -> valid_index (w_files w1 iino) p n ->
  p_min p = p_min cp -> p_avg p = p_avg cp -> p_max p = p_max cp ->
  usual_chunks (w_files w1 iino) (N.to_nat n) -> let h := w_files w1 iino in
  idx_ok (ls_idx ls) /\ ix_entries (ls_idx ls) = map (fun j => mkEntry (ent_start h j) (ent_size h j) 0 (ent_id h j)) (seq 0 (N.to_nat n)).
Proof.
  intros Hf He Ha H Ho Hk V P1 P2 P3 Hu h. fold h in V, Hu. set (m := N.to_nat n) in *.
  set (made_of := map (fun j => mkEntry (ent_start h j) (ent_size h j) 0 (ent_id h j))).
  assert (G : wp (store_local_new E path (Some ip) cp) (fun r _ => forall ls, r = Some ls -> idx_ok (ls_idx ls) /\ ix_entries (ls_idx ls) = made_of (seq 0 m)) (fun _ _ => True) w1).
  { unfold store_local_new. apply wp_bind, wp_alloc_why. 2:{ intros al _ Hal. elim (Ha Hal). } intros al Hal. cbn [negb]. destruct (e_open E path) as [ino|]; [|apply wp_ret; discriminate].
    apply wp_bind. unfold store_sideload_index. rewrite Ho. apply wp_bind. destruct (Hf iino) as (Hok & Hlim). fold h in Hok, Hlim.
    pose proof (load_header_spec E iino h Hok (set_alloc al w1) eq_refl Hlim) as L. unfold wp at 1.
    destruct (caibx_load_header E iino (set_alloc al w1)) as [[[[cp' n']|]| | |] w3]; try contradiction; auto.
    2:{ destruct L as (_ & [L|[L|L]]); [elim (L He)|contradiction|elim (L _ _ V)]. }
    destruct L as ((ev & -> & Hs & _) & V' & _). destruct (valid_index_unique h p n cp' n' V V') as (<- & <-). cbn [ls_params ls_idx].
    rewrite P1, P2, P3, !N.eqb_refl. cbn [negb andb].
    apply wp_bind, wp_index_init; auto. 2:{ intros al' _ Hal' _. elim Ha. apply Hal. exact Hal'. }
    intros al' Ha' Hn Hx0. cbn [negb]. apply wp_bind.
    assert (Lm : (64 + 40 * m <= length h)%nat) by (eapply valid_length; eauto).
    replace n with (N.of_nat m) at 1 by (unfold m; lia).
    assert (Hsz : forall j, (j < m)%nat -> ent_len h (ent_start h j) j = ent_size h j).
    { intros j Hj. destruct (Hu j Hj) as (U1 & _). unfold ent_len, ent_size in *. assert (ent_end h j < 2 ^ 64) by (apply field_lt; auto). lia. }
    eapply wp_mono; [apply (iterate_rule (store_insert_index 0) iino p h m Hok Lm Hlim) with
       (Inv := fun (j : nat) (last : N) (x : index) (w' : world) => w_files w' iino = h /\ error_free (w_io w') /\ ~ In false (w_alloc w') /\ (j <= m)%nat /\
                 last = ent_start h j /\ idx_ok x /\ ix_entries x = made_of (seq 0 j))
       (Fail := fun (x : index) (w' : world) => False) (R := fun (b : bad) (w' : world) => True)| |auto].
    - intros j last x w' (A & _). exact A.
    - intros j last x w' ev' Hj (I1 & I2 & I3 & I4 & -> & I6 & I7) Hs' _. pose proof (Hu j Hj) as (U1 & U2). unfold BUF_SIZE in U2.
      assert (Sk : skipped p h m (ent_start h j) j = false). { unfold skipped. rewrite Hsz by exact Hj. assert (UINT32_MAX <? ent_size h j = false) as -> by (unfold UINT32_MAX; lia). now rewrite !andb_false_r. }
      rewrite Sk, Hsz by exact Hj. replace (ent_size h j mod 2 ^ 32) with (ent_size h j) by (symmetry; apply N.mod_small; change (2 ^ 32) with 4294967296; lia).
      unfold store_insert_index. apply wp_bind, wp_index_insert; auto.
      + unfold n_entries. rewrite I7. unfold made_of. rewrite map_length, seq_length. unfold blen, OFF_LIMIT in Hlim. change (2 ^ 64) with 18446744073709551616. lia.
      + intros al2 sp Ha2 _ Hx'. apply wp_ret. cbn [fst snd]. rewrite or_flags_last0. split; [exact I1|]. split; [eapply error_free_suffix; eauto|].
        split; [intros X; apply I3, Ha2, X|]. split; [lia|]. split; [reflexivity|]. split; [exact Hx'|]. cbn [ix_entries]. rewrite I7. unfold made_of. now rewrite seq_S, map_app.
      + intros al2 _ Hf2 _. elim (I3 Hf2).
    - intros j last x w' ev' _ (_ & I2 & _) _ Hne. elim (Hne I2).
    - auto.
    - split; [reflexivity|]. split; [eapply error_free_suffix; eauto|]. split; [intros X; apply Ha, Hal, Ha', X|]. split; [lia|]. split; [reflexivity|]. split; [exact Hx0|reflexivity].
    - intros [ok x] w' X. cbn [fst snd] in X. destruct ok; [|contradiction]. cbn [negb]. destruct X as (last & _ & _ & _ & _ & _ & X1 & X2). apply wp_ret, wp_ret. intros ls1 Els. injection Els as <-. auto. }
  exact (wp_ok _ _ _ _ _ _ _ G H ls eq_refl).
Qed.
Lemma local_new_index E path ip cp w1 ls w2 iino p n i : files_ok w1 -> error_free (w_io w1) -> ~ In false (w_alloc w1) ->
  store_local_new E path (Some ip) cp w1 = (Ok (Some ls), w2) ->
  e_open E ip = Some iino -> e_kind E iino <> KOther -> valid_index (w_files w1 iino) p n ->
  p_min p = p_min cp -> p_avg p = p_avg cp -> p_max p = p_max cp ->
  usual_chunks (w_files w1 iino) (N.to_nat n) -> in_place (e_H E) (w_files w1 iino) (N.to_nat n) (w_files w1 (ls_ino ls)) ->
  (i < N.to_nat n)%nat -> stocked E (ls_ino ls) (w_files w1 (ls_ino ls)) (eq (ent_id (w_files w1 iino) i)) ls.
Proof.
  intros Hf He Ha H Ho Hk V P1 P2 P3 Hu Hin Hi. destruct (local_new_made E path ip cp w1 ls w2 iino p n Hf He Ha H Ho Hk V P1 P2 P3 Hu) as (Hx & X).
  set (h := w_files w1 iino) in *. set (m := N.to_nat n) in *. split; [reflexivity|]. split; [exact Hx|]. rewrite X. split.
  - intros e X1. apply in_map_iff in X1 as (j & <- & X1). apply in_seq in X1. destruct (Hu j ltac:(lia)) as (U1 & U2). destruct (Hin j ltac:(lia)) as (_ & A & B).
    unfold sound. cbn [en_start en_len en_id]. split; [lia|]. unfold ent_size in *. split; [lia|exact B].
  - intros id <-. exists (mkEntry (ent_start h i) (ent_size h i) 0 (ent_id h i)). split; [|reflexivity]. apply in_map_iff. exists i. split; [reflexivity|]. apply in_seq. lia.
Qed.

(** ** A run *)
Lemma Forall2_at_r {A B} (P : A -> B -> Prop) l l' : Forall2 P l l' -> forall j b, nth_error l' j = Some b -> exists a, nth_error l j = Some a /\ P a b.
Proof. induction 1 as [|a b l l' H _ IH]; intros [|j] c Hj; cbn in *; try discriminate; [injection Hj as <-; eauto|auto]. Qed.
Lemma Forall2_at {A B} (P : A -> B -> Prop) l l' : Forall2 P l l' -> forall j a, nth_error l j = Some a -> exists b, nth_error l' j = Some b /\ P a b.
Proof. induction 1 as [|a b l l' H _ IH]; intros [|j] c Hj; cbn in *; try discriminate; [injection Hj as <-; eauto|auto]. Qed.
Lemma wp_run_d E argv w wk su w1 k sino ids : sane E argv w -> error_free (w_io w1) ->
  started w wk -> ready E true argv w wk su w1 -> sino <> t_ino (su_target su) ->
  (forall l, su_store su = Some l -> kept E sino (w_files w sino) ids l k) ->
  logged k ids w1 (w_files w (su_index su)) (N.to_nat (su_n su)) (snd (run_sync E su w1)).
Proof.
  intros HS He Hst HR Hsi Hkept. pose proof (ready_files _ _ _ _ _ _ _ Hst HR) as Hfil. destruct HS as [HE Hsv Hes Hf Hargs Hhelp Hix Hal Hd].
  destruct HR as [R1 R2 R3 R4 R5 R6 R7 (l & R8 & R9 & R10)].
  set (f := w_files w (su_index su)) in *. set (n := N.to_nat (su_n su)) in *. set (tino := t_ino (su_target su)) in *. set (g := w_files w sino) in *.
  assert (Hn : su_n su = N.of_nat n) by (unfold n; lia).
  assert (Hne : su_index su <> tino) by (intros Heq; apply (Hix tino R3); rewrite R2; congruence).
  assert (Hlen : (64 + 40 * n <= length f)%nat) by (eapply valid_length; eauto). destruct (Hf (su_index su)) as (Hok & Hlim). fold f in Hok, Hlim.
  assert (HU : DInv E k sino g ids w1 tino f 0 (initial_mstate su) w1).
  { assert (Hbuf : blen (repeat 0 (N.to_nat BUF_SIZE)) = BUF_SIZE) by (unfold blen; rewrite repeat_length; apply N2Nat.id).
    unfold initial_mstate. constructor; cbn [m_target m_store m_buf]; auto.
    - split; [exact He|]. split; [exact (R5 eq_refl)|]. apply Hfil.
    - exists l. split; [exact R8|]. split; [|now apply Hkept]. apply Forall_forall. intros ss Hss.
      apply In_nth_error in Hss as (q & Hq). rewrite Forall_forall in R9. pose proof (R9 ss (nth_error_In _ _ Hq)) as S1.
      destruct (Forall2_at_r _ _ _ R10 q _ Hq) as (a & _ & (M1 & _)). specialize (S1 M1). unfold store_ok in S1. unfold hk. destruct (ss_store ss); auto.
    - exists []. split; [reflexivity|]. intros j. exists []. split; [reflexivity|]. split; constructor. }
  assert (Fin : forall i st w2, (i <= n)%nat -> DInv E k sino g ids w1 tino f i st w2 -> logged k ids w1 f n w2) by (intros i st w2 Hi []; eapply logged_more; eauto).
  assert (DIo : forall i st w2 ev, suffix ev (w_io w2) -> DInv E k sino g ids w1 tino f i st w2 -> DInv E k sino g ids w1 tino f i st (set_io ev w2)).
  { intros i st w2 ev Hs [(C1 & C2 & C3) D2 D3 D4 D5 D6]. constructor; auto. split; [eapply error_free_suffix; eauto|]. split; auto. }
  apply (wp_final _ (run_sync E su) (logged k ids w1 f n)). unfold run_sync, caibx_iterate_entries. apply wp_bind. fold n.
  change 0 with (N.of_nat 0) at 1. rewrite Hn.
  assert (QS : forall w2 w3, quiet none never w2 w3 -> logged k ids w1 f n w2 -> logged k ids w1 f n w3).
  { intros w2 w3 Q. apply logged_quiet with (P := never) (S0 := none); [intros p d []|exact Q]. }
  eapply wp_mono; [apply (iterate_prefix_rule (entry_cb E (N.of_nat n)) (su_index su) (su_params su) f n Hok Hlen Hlim
     (fun i _ st w2 => DInv E k sino g ids w1 tino f i st w2) (fun _ w2 => logged k ids w1 f n w2) (fun _ w2 => logged k ids w1 f n w2))|..].
  - intros i last st w2 HI. rewrite (di_files _ _ _ _ _ _ _ _ _ _ _ HI) by exact Hne. apply Hfil.
  - intros i last st w2 ev Hi HI Hs _. pose proof (DIo _ _ _ _ Hs HI) as HI'. destruct (skipped _ _ _ _ _).
    { destruct HI' as [D1 D2 D3 D4 D5 D6]. constructor; auto. eapply (logged_more k ids w1 f i); [lia|exact D6]. }
    eapply wp_mono; [apply (wp_entry_d E k HE Hsv sino g ids ltac:(apply Hf) w1 tino f Hsi (N.of_nat n) i st (set_io ev w2))|..]; auto.
    + apply ent_id_length with (n := n); auto.
    + intros [ok st'] w3 X. cbn [fst snd] in *. destruct ok; [exact X|]. eapply logged_more; [|exact X]. lia.
    + intros bd w3 X. eapply logged_more; [|exact X]. lia.
  - intros i last st w2 ev Hi HI Hs Hne2. elim Hne2. apply HI.
  - intros i last st w2 Hi HI _. eapply (Fin i); [lia|]. apply DIo; [|exact HI]. exists (w_io w2). now rewrite app_nil_r.
  - lia.
  - exact HU.
  - intros [ok st] w2 H. cbn [fst snd] in H. destruct ok; cbn [negb]; [|apply wp_ret; exact H]. destruct H as (_ & HI). pose proof (Fin _ _ _ (le_n _) HI) as HS2.
    destruct (m_store st) as [ch|]; [|apply wp_ub; exact HS2]. apply (wp_frame none never); [apply frame_bind; [apply frame_chain_free|intros; apply frame_ret]|].
    apply wp_bind. apply wp_any; [|intros bd w3 Q; eapply QS; eauto]. intros _ w3. apply wp_ret. intros Q. eapply QS; eauto.
  - auto.
Qed.


Section Main.
Variables (E : env) (argv : list bytes) (w : world).
Hypothesis (HS : sane E argv w) (Hh : hash_reliable E w) (He : error_free (w_io w)) (Ha : ~ In false (w_alloc w)).
Variables (iino : nat) (p : params) (n : N).
Hypothesis (Hi : e_open E (cmd_index argv) = Some iino) (HV : valid_index (w_files w iino) p n).
Let f := w_files w iino.

(** From what is known of the requests after the start of the run to those of the run. *)
Lemma lift_log k (ids : bytes -> Prop) tr :
  (forall wk su w1, started w wk -> ready E true argv w wk su w1 -> su_index su = iino -> su_params su = p -> su_n su = n -> error_free (w_io w1) ->
     exists sino, sino <> t_ino (su_target su) /\ forall l, su_store su = Some l -> kept E sino (w_files w sino) ids l k) ->
  run_trace w (snd (main E argv w)) tr -> lg k ids f (N.to_nat n) tr.
Proof.
  intros HK. pose proof (wp_init E true argv w HS (fun _ => Hh)) as H. rewrite main_init. unfold bind, wp in *.
  assert (Nil : forall t, Forall store_ev t -> lg k ids f (N.to_nat n) t).
  { intros t Ht j. exists []. rewrite (asked_of_none j store_ev) by auto. split; [reflexivity|]. split; constructor. }
  assert (Q0 : forall wk w1, started w wk -> quiet0 wk w1 -> error_free (w_io w1) /\ exists t, w_trace w1 = t ++ w_trace w /\ Forall store_ev t).
  { intros wk w1 (kc & ->) (_ & Q2 & Q3 & _ & t & Q4 & Q5). split; [eapply error_free_suffix; eauto|]. exists t. auto. }
  assert (QN : forall w1, (exists wk, started w wk /\ quiet0 wk w1) -> run_trace w w1 tr -> lg k ids f (N.to_nat n) tr).
  { intros w1 (wk & A & B) R. destruct (Q0 _ _ A B) as (_ & t & C & D). unfold run_trace in R. rewrite C in R. apply app_inv_tail in R. subst t. now apply Nil. }
  destruct (init E argv w) as [[[su| |c]| | |] w1].
  - destruct H as (wk & A & B & C). destruct (Q0 _ _ A B) as (D1 & t & D3 & D4).
    assert (I1 : su_index su = iino) by (pose proof (rd_index _ _ _ _ _ _ _ C); congruence).
    pose proof (rd_valid _ _ _ _ _ _ _ C) as V. rewrite I1 in V. destruct (valid_index_unique _ _ _ _ _ HV V) as (I2 & I3).
    destruct (HK wk su w1 A C I1 (eq_sym I2) (eq_sym I3) D1) as (sino & K1 & K2).
    destruct (wp_run_d E argv w wk su w1 k sino ids HS D1 A C K1 K2) as (t2 & T1 & T2). rewrite I1, <- I3 in T2. fold f in T2.
    intros R. unfold run_trace in R. rewrite T1, D3, app_assoc in R. apply app_inv_tail in R. subst tr. intros j. destruct (T2 j) as (l & X & Y). exists l.
    rewrite asked_of_app, (asked_of_none j store_ev t), app_nil_r by auto. auto.
  - apply QN. destruct H as (wk & X & Y & _). eauto.
  - apply QN. destruct H as (wk & X & Y & _). eauto.
  - apply QN. destruct H as (_ & H). exact H.
  - apply QN. destruct H as (_ & H). exact H.
  - apply QN. destruct H as (_ & H). exact H.
Qed.

Lemma asked_entries j tr : run_trace w (snd (main E argv w)) tr -> asked_for f (N.to_nat n) (fun _ => True) j tr.
Proof.
  intros R. destruct (lift_log 0 (fun _ => False) tr) with (j := j) as (l & A & B & C); [|exact R|].
  - intros wk su w1 _ _ _ _ _ _. exists (S (t_ino (su_target su))). split; [lia|]. intros l _. left. auto.
  - exists l. split; [exact A|]. split; [exact B|]. eapply Forall_impl; [|exact C]. intros x (X & _). auto.
Qed.

Lemma seeded_stocked wk su w1 k arg id l : started w wk -> ready E true argv w wk su w1 -> su_params su = p ->
  nth_error (cmd_stores argv) k = Some arg -> seeded E w (cmd_target argv) p arg id -> su_store su = Some l ->
  exists ls, nth_error l k = Some (mkSub (SLocal ls) true) /\ ls_ino ls <> t_ino (su_target su) /\ stocked E (ls_ino ls) (w_files w (ls_ino ls)) (eq id) ls.
Proof.
  intros Hst HR I2 Hk Hsd Hl. pose proof (rd_store _ _ _ _ _ _ _ HR) as (l' & L1 & L2 & L3). assert (l' = l) by congruence. subst l'.
  destruct (Forall2_at _ _ _ L3 k arg Hk) as (ss & N1 & M1 & M2). rewrite Forall_forall in L2. pose proof (L2 ss (nth_error_In _ _ N1) M1) as OK.
  assert (Lc : exists path ip ls, classify_arg (cmd_target argv) arg = ArgLocal path ip /\ ss = mkSub (SLocal ls) true).
  { assert (exists path ip, classify_arg (cmd_target argv) arg = ArgLocal path ip) as (path & ip & Hc) by (destruct Hsd; eauto). rewrite Hc in M2. destruct ss as [st a]. cbn [ss_store ss_active] in *. subst a. destruct st; try contradiction. eauto. }
  destruct Lc as (path & ip & ls & Hc & ->). rewrite Hc in M2. cbn [ss_store] in M2. destruct M2 as (O1 & P1 & _ & wa & wb & F1 & F2 & F3 & Hnew). rewrite I2 in Hnew, P1.
  cbn in OK. destruct OK as (K1 & _ & _ & _ & K2 & _). exists ls. split; [exact N1|]. split; [exact K1|].
  assert (Fa : files_ok wa) by (intros q; rewrite F1; apply HS).
  assert (Ea : error_free (w_io wa)) by (eapply error_free_suffix; eauto). assert (Aa : ~ In false (w_alloc wa)) by (intros X; apply Ha, F3, X).
  destruct Hsd as [path' ino D c S1 S2 S3 S4 S5|path' ip' ino iino' p' n' i S1 S2 S3 S4 S5 S6 S7 S8 S9 S10 S11].
  - rewrite Hc in S1. injection S1 as -> ->. assert (ino = ls_ino ls) by congruence. subst ino. rewrite <- F1. rewrite <- F1 in S5. eapply local_new_scan; eauto.
  - rewrite Hc in S1. injection S1 as -> ->. assert (ino = ls_ino ls) by congruence. subst ino. rewrite <- (F1 iino') in S5, S9, S10 |- *. rewrite <- (F1 (ls_ino ls)) in S10 |- *. eapply local_new_index; eauto.
Qed.

Lemma seeded_not_asked k arg id j tr : nth_error (cmd_stores argv) k = Some arg -> seeded E w (cmd_target argv) p arg id -> (k < j)%nat ->
  run_trace w (snd (main E argv w)) tr -> ~ In id (asked_of j tr).
Proof.
  intros Hk Hsd Hj R Hin. destruct (lift_log k (eq id) tr) with (j := j) as (l & A & B & C); [|exact R|].
  2:{ apply in_rev in Hin. rewrite A in Hin. apply in_map_iff in Hin as (i & Ei & Hin). rewrite Forall_forall in C. destruct (C i Hin) as (_ & C2). apply (C2 Hj). now rewrite Ei. }
  intros wk su w1 Hst HR I1 I2 I3 He1. pose proof (rd_store _ _ _ _ _ _ _ HR) as (l & L1 & _).
  destruct (seeded_stocked wk su w1 k arg id l Hst HR I2 Hk Hsd L1) as (ls & N1 & K1 & K2).
  exists (ls_ino ls). split; [exact K1|]. intros l' L1'. assert (l' = l) by congruence. subst l'. right. exists ls. auto.
Qed.

Lemma delta k arg j tr : nth_error (cmd_stores argv) k = Some arg -> run_trace w (snd (main E argv w)) tr ->
  asked_for f (N.to_nat n) (fun i => (k < j)%nat -> ~ seeded E w (cmd_target argv) p arg (ent_id f i)) j tr.
Proof.
  intros Hk R. destruct (asked_entries j tr R) as (l & A & B & C). exists l. split; [exact A|]. split; [exact B|]. rewrite Forall_forall in *. intros i Hin. split; [now apply C|].
  intros Hj Hsd. apply (seeded_not_asked k arg (ent_id f i) j tr Hk Hsd Hj R). apply in_rev. rewrite A. now apply in_map.
Qed.
End Main.

(** The requests to a later store are at most as many as the entries the store is not known to hold. *)
Lemma asked_count j tr : total (ask_ev j) tr = N.of_nat (length (asked_of j tr)).
Proof.
  induction tr as [|ev tr IH]; [reflexivity|]. cbn [total asked_of flat_map]. fold (asked_of j tr). rewrite IH, app_length. destruct ev; cbn [ask_ev length]; try lia.
  destruct (Nat.eqb _ _); cbn [length]; lia.
Qed.
Lemma sorted_nodup l : StronglySorted lt l -> NoDup l.
Proof. induction 1 as [|x l H IH F]; constructor; [|exact IH]. intros X. rewrite Forall_forall in F. specialize (F x X). lia. Qed.
Lemma few f n (P : nat -> Prop) (held : nat -> bool) j tr : (forall i, (i < n)%nat -> held i = true -> ~ P i) ->
  asked_for f n P j tr -> total (ask_ev j) tr <= N.of_nat (length (filter (fun i => negb (held i)) (seq 0 n))).
Proof.
  intros H (l & A & B & C). rewrite asked_count, <- rev_length, A, map_length. apply sorted_nodup in B.
  assert (length l <= length (filter (fun i => negb (held i)) (seq 0 n)))%nat; [|lia]. apply NoDup_incl_length; [exact B|]. intros i Hi. rewrite Forall_forall in C. destruct (C i Hi) as (C1 & C2).
  apply filter_In. split; [apply in_seq; lia|]. destruct (held i) eqn:Eh; [|reflexivity]. elim (H i C1 Eh C2).
Qed.
Lemma delta_few E argv w iino p n k arg j tr (held : nat -> bool) : sane E argv w -> hash_reliable E w -> error_free (w_io w) -> ~ In false (w_alloc w) ->
  e_open E (cmd_index argv) = Some iino -> valid_index (w_files w iino) p n -> nth_error (cmd_stores argv) k = Some arg -> run_trace w (snd (main E argv w)) tr -> (k < j)%nat ->
  (forall i, (i < N.to_nat n)%nat -> held i = true -> seeded E w (cmd_target argv) p arg (ent_id (w_files w iino) i)) ->
  total (ask_ev j) tr <= N.of_nat (length (filter (fun i => negb (held i)) (seq 0 (N.to_nat n)))).
Proof.
  intros HS Hh He Ha Hi HV Hk R Hj H. pose proof (delta E argv w HS Hh He Ha iino p n Hi HV k arg j tr Hk R) as D. eapply few; [|exact D]. cbv beta. intros i Hin X Y. exact (Y Hj (H i Hin X)).
Qed.
Lemma delta_query E argv w iino p n k arg j id tr : sane E argv w -> hash_reliable E w -> error_free (w_io w) -> ~ In false (w_alloc w) ->
  e_open E (cmd_index argv) = Some iino -> valid_index (w_files w iino) p n -> nth_error (cmd_stores argv) k = Some arg -> run_trace w (snd (main E argv w)) tr ->
  In (TQuery j id) tr -> seeded E w (cmd_target argv) p arg id -> (j <= k)%nat.
Proof.
  intros HS Hh He Ha Hi HV Hk R Hin Hsd. destruct (Nat.le_gt_cases j k) as [|Hj]; [assumption|exfalso].
  apply (seeded_not_asked E argv w HS Hh He Ha iino p n Hi HV k arg id j tr Hk Hsd Hj R). unfold asked_of. apply in_flat_map. exists (TQuery j id). split; [exact Hin|]. rewrite Nat.eqb_refl. now left.
Qed.
