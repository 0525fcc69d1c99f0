(** With the target as a store, no chunk is requested twice from the stores after it (C10). *)
From Coq Require Import Sorting.Permutation.
From Verif Require Import Base Lib Utils Sha Chunker Caibx Index StoreLocal Target StoreHttp Chain Ui MainProg
  SpecBasic SpecEnv SpecChunker SpecStore SpecHttp SpecCaibx SpecMain SpecRun SpecOrder
  PfUtils PfBasic PfIO PfRead PfKeyspec PfIndex PfFrame PfLocal PfHttp PfHttp2 PfCaibx PfTarget PfChain PfMain PfMain2 PfSetup PfRun.
Local Open Scope N_scope.

Section Asked.
Variable (k : nat).
Lemma asked_app a c : asked_after k (a ++ c) = asked_after k a ++ asked_after k c.
Proof. apply flat_map_app. Qed.
Lemma asked_none (P : tev -> Prop) tr : (forall p id, ~ P (TQuery p id)) -> Forall P tr -> asked_after k tr = [].
Proof. intros H. induction 1 as [|ev tr He _ IH]; [reflexivity|]. cbn [asked_after flat_map]. fold (asked_after k tr). rewrite IH. destruct ev; try reflexivity. elim (H _ _ He). Qed.
End Asked.

Lemma NoDup_app2 {A} (a c : list A) : NoDup a -> NoDup c -> (forall x, In x a -> ~ In x c) -> NoDup (a ++ c).
Proof.
  induction 1 as [|x a Hx _ IH]; cbn; intros Hc Hd; [exact Hc|]. constructor.
  - intros Hin. apply in_app_or in Hin as [Hin|Hin]; [contradiction|]. apply (Hd x); auto.
  - apply IH; auto.
Qed.

Lemma Forall2_at {A B} (P : A -> B -> Prop) l l' : Forall2 P l l' -> forall j a, nth_error l j = Some a -> exists b, nth_error l' j = Some b /\ P a b.
Proof.
  induction 1 as [|x y l l' H _ IH]; intros [|j] a Hj; try discriminate; [|now apply IH]. cbn in Hj. injection Hj as ->. exists y. auto.
Qed.

Section Unique.
Variables (E : env) (cp : params) (k : nat).
Hypothesis (HE : env_ok E) (Hsv : server_ok E).

(** The index of the target can be read back. *)
Definition tgt_in (g : bytes) (t : target) : Prop :=
  t_queryable t = true /\ idx_ok (t_idx t) /\
  forall e, In e (entries t) -> 0 < en_len e <= BUF_SIZE /\ en_start e < OFF_LIMIT /\ en_start e + en_len e <= blen g.
Definition missing (t : target) (id : bytes) : Prop := forall e, In e (entries t) -> en_id e <> id.
Lemma missing_same t t' id : same_target t t' -> missing t id -> missing t' id.
Proof. intros (_ & _ & P) H e He. apply H. eapply Permutation_in; [symmetry; exact P|exact He]. Qed.
Lemma tgt_in_same g t t' : same_target t t' -> idx_ok (t_idx t') -> tgt_in g t -> tgt_in g t'.
Proof. intros (A & B & P) Hx (C & D & F). split; [congruence|]. split; [exact Hx|]. intros e He. apply F. eapply Permutation_in; [symmetry; exact P|exact He]. Qed.

Lemma wp_target_in t id out w : tgt_in (w_files w (t_ino t)) t -> blen out = BUF_SIZE -> error_free (w_io w) ->
  wp (target_get_chunk E t id out) (fun x w' => let '(r, out', t') := x in
       quiet0 w w' /\ length out' = length out /\ same_target t t' /\ idx_ok (t_idx t') /\
       ((r = Some 0 /\ missing t id) \/ exists m, r = Some m /\ 0 < m)) (fun _ w' => quiet0 w w') w.
Proof.
  destruct HE as (HH & Hq & Hb & Hz). intros (Ht & Hx & Hin) Hl He. unfold target_get_chunk. rewrite Ht. cbn [negb]. apply wp_bind, wp_index_query; auto.
  - intros pos x' e Hx' P N1 N2. apply wp_bind. eapply wp_index_get; [exact N1|].
    assert (ST : same_target t (t_set_idx t x')) by (split; [reflexivity|]; split; [reflexivity|exact P]).
    assert (Ie : In e (entries t)) by (eapply Permutation_in; [symmetry; exact P|eapply nth_error_In; eauto]).
    destruct (Hin _ Ie) as (G1 & G2 & G3). replace (blen out <? en_len e) with false by lia.
    apply wp_bind, wp_pread; cbn [t_ino t_set_idx].
    + intros ev Hs _ _ Hd _. cbn [negb]. apply wp_ret. split; [apply quiet0_io, Hs|]. split; [apply length_overlay; unfold blen in *; lia|]. split; [exact ST|]. split; [exact Hx'|].
      right. exists (en_len e). split; [reflexivity|lia].
    + intros ev n Hs Hn Hln Hr. exfalso. destruct Hr as [Hr|[Hr|Hr]]; [contradiction|lia|lia].
    + intros _. apply quiet0_io. exists (w_io w). now rewrite app_nil_r.
  - intros x' Hx' P Hno. apply wp_ret. split; [apply quiet0_refl|]. split; [reflexivity|]. split; [split; [reflexivity|split; [reflexivity|exact P]]|]. split; [exact Hx'|].
    left. split; [reflexivity|exact Hno].
Qed.

Lemma wp_store_in s t id out w : length id = 32%nat -> tgt_in (w_files w (t_ino t)) t -> blen out = BUF_SIZE -> error_free (w_io w) -> store_ok E false w t s ->
  wp (store_get_chunk E s t id out) (fun x w' => let '(r, out', s', t') := x in
       quiet0 w w' /\ length out' = length out /\ (r <> None -> store_ok E false w' t' s') /\ same_kind s s' /\ same_target t t' /\ idx_ok (t_idx t') /\
       (s = STarget -> (r = Some 0 /\ missing t id) \/ exists m, r = Some m /\ 0 < m)) (fun _ w' => quiet0 w w') w.
Proof.
  intros Lid Ht Hl He Hs. pose proof HE as (HH & Hq & Hb & Hz). assert (Hm : hash_mode false w) by discriminate. assert (Hx : idx_ok (t_idx t)) by apply Ht.
  unfold store_get_chunk. destruct s as [ls|hs|]; apply wp_bind.
  - cbn in Hs. destruct Hs as (A & (D & HD) & Hmax & Hlen & Hls). apply wp_local_get with (b := false) (D := D); auto.
    intros [[r out'] ls'] tr w' Q Htr G. apply wp_ret. apply got_authentic in G as ((G1 & _) & G2 & G3 & G4). cbn [fst snd] in G1.
    split; [exact Q|]. split; [exact G1|]. split; [|split; [cbn; auto|split; [apply same_target_refl|split; [exact Hx|discriminate]]]].
    intros Hr. cbn. rewrite G2, G3, (quiet0_files _ _ Q). split; [exact A|]. split; [eauto|]. split; [exact Hmax|]. split; [exact Hlen|auto].
  - apply (wp_frame none store_ev); [apply frame_http_get; intros; exact I|].
    eapply wp_mono; [apply (wp_http_get E false hs id out w Hz Hsv Hs Lid Hm)| |].
    + intros [[r out'] hs'] w' ((A & _) & B & C & _) Q. apply wp_ret. split; [exact Q|]. split; [exact A|]. split; [intros _; exact B|].
      split; [exact C|]. split; [apply same_target_refl|]. split; [exact Hx|discriminate].
    + intros bd w' _ Q. exact Q.
  - eapply wp_mono; [apply (wp_target_in t id out w Ht Hl He)| |auto]. intros [[r out'] t'] w' (A & B & C & D & F). apply wp_ret.
    split; [exact A|]. split; [exact B|]. split; [intros _; exact I|]. split; [exact I|]. auto.
Qed.

(** The target is store number [k - i] of [l]; or it has been asked in vain. *)
Definition live (l : list substore) (j : nat) : Prop := exists ss, nth_error l j = Some ss /\ ss_store ss = STarget /\ ss_active ss = true.
Definition guarded (i : nat) (l : list substore) (t : target) (id : bytes) : Prop :=
  ((i <= k)%nat /\ live l (k - i)) \/ ((k < i)%nat /\ missing t id).

Lemma chain_asks id : length id = 32%nat -> forall l i t out w,
  tgt_in (w_files w (t_ino t)) t -> blen out = BUF_SIZE -> error_free (w_io w) -> Forall (sub_ok E false w t) l -> guarded i l t id ->
  wp (chain_loop E i l t id out) (fun x w' => let '(r, out', l', t') := x in
       quiet none (chain_ev id) w w' /\ length out' = length out /\ Forall (sub_ok E false w' t') l' /\ same_target t t' /\ idx_ok (t_idx t') /\
       ((i <= k)%nat -> live l' (k - i)) /\
       exists tr, w_trace w' = tr ++ w_trace w /\ NoDup (asked_after k tr) /\
         forall p d, In (p, d) (asked_after k tr) -> d = id /\ (i <= p)%nat /\ missing t id)
     (fun _ w' => exists tr, w_trace w' = tr ++ w_trace w /\ NoDup (asked_after k tr) /\
         forall p d, In (p, d) (asked_after k tr) -> d = id /\ (i <= p)%nat /\ missing t id) w.
Proof.
  intros Lid. induction l as [|ss l IH]; intros i t out w Ht Hl He Hok Hg; cbn [chain_loop].
  - apply wp_ret. split; [apply quiet_refl|]. split; [reflexivity|]. split; [constructor|]. split; [apply same_target_refl|]. split; [apply Ht|].
    split. { intros Hi. destruct Hg as [(_ & ss & H & _)|(H & _)]; [destruct (k - i)%nat; discriminate|lia]. }
    exists []. split; [reflexivity|]. split; [constructor|]. intros p d [].
  - inversion Hok as [|? ? H1 H2]; subst.
    assert (Hg' : i <> k -> forall t', same_target t t' -> guarded (S i) l t' id).
    { intros Hik t' ST. destruct Hg as [(Hi & ss0 & A & B)|(Hi & A)]; [left; split; [lia|]|right; split; [lia|eapply missing_same; eauto]].
      exists ss0. replace (k - i)%nat with (S (k - S i)) in A by lia. auto. }
    destruct (ss_active ss) eqn:Ea; cbn [negb].
    2:{ assert (Hik : i <> k). { intros ->. destruct Hg as [(_ & ss0 & A & _ & B)|(A & _)]; [|lia]. rewrite Nat.sub_diag in A. cbn in A. congruence. }
        apply wp_bind. eapply wp_mono; [apply (IH (S i) t out w); auto; apply Hg'; auto; apply same_target_refl| |].
        - intros [[[r out'] l'] t'] w' (A & B & C & D & F & G & tr & T1 & T2 & T3). apply wp_ret. split; [exact A|]. split; [exact B|].
          split; [constructor; [intros Hc; congruence|exact C]|]. split; [exact D|]. split; [exact F|].
          split. { intros Hi. replace (k - i)%nat with (S (k - S i)) by lia. apply G. lia. }
          exists tr. split; [exact T1|]. split; [exact T2|]. intros p d Hp. destruct (T3 p d Hp) as (U1 & U2 & U3). split; [exact U1|]. split; [lia|exact U3].
        - intros bd w' (tr & T1 & T2 & T3). exists tr. split; [exact T1|]. split; [exact T2|]. intros p d Hp. destruct (T3 p d Hp) as (U1 & U2 & U3). split; [exact U1|]. split; [lia|exact U3]. }
    apply wp_bind, wp_trace, wp_bind. set (w1 := add_trace _ w).
    assert (Q1 : quiet none (chain_ev id) w w1) by (apply (frame_trace none (chain_ev id) (TQuery i id) eq_refl w)).
    (* the trace up to a point before which only store [i] was asked *)
    assert (Tr : forall w2, quiet0 w1 w2 -> exists tr, w_trace w2 = (tr ++ [TQuery i id]) ++ w_trace w /\ Forall store_ev tr).
    { intros w2 (_ & _ & _ & _ & tr & A & B). exists tr. split; [|exact B]. rewrite A. unfold w1. cbn [w_trace add_trace]. now rewrite <- app_assoc. }
    assert (Ask : forall tr, Forall store_ev tr -> NoDup (asked_after k (tr ++ [TQuery i id])) /\
       forall p d, In (p, d) (asked_after k (tr ++ [TQuery i id])) -> (p, d) = (i, id) /\ (k < i)%nat /\ missing t id).
    { intros tr Htr. rewrite asked_app, (asked_none k store_ev) by auto. cbn [app asked_after flat_map]. destruct (Nat.ltb_spec k i); cbn [app].
      - split; [constructor; [exact (fun x => x)|constructor]|]. intros p d [X|[]]. split; [congruence|]. split; [assumption|]. destruct Hg as [(Hi & _)|(_ & A)]; [lia|exact A].
      - split; [constructor|]. intros p d []. }
    eapply wp_mono; [apply (wp_store_in (ss_store ss) t id out w1); auto| |].
    2:{ intros bd w' Q. destruct (Tr _ Q) as (tr & A & B). exists (tr ++ [TQuery i id]). split; [exact A|]. destruct (Ask _ B) as (C & D). split; [exact C|].
        intros p d Hp. destruct (D p d Hp) as (X & Y & Z). injection X as -> ->. split; [reflexivity|]. split; [lia|exact Z]. }
    intros [[[r out'] s'] t'] w0' (Q & Lo & So & K & ST & Hx & Tg). apply wp_bind, wp_trace. set (w' := add_trace _ w0').
    assert (F : forall j, w_files w' j = w_files w j) by (intros j; apply (quiet0_files _ _ Q)).
    assert (Qw : quiet none (chain_ev id) w w').
    { eapply quiet_trans; [exact Q1|]. eapply quiet_trans; [apply quiet0_chain; exact Q|]. apply (frame_trace none (chain_ev id) (TAnswer i r) Logic.I w0'). }
    change (r <> None -> store_ok E false w' t' s') in So. assert (Hino : t_ino t' = t_ino t) by apply ST.
    destruct (Tr _ Q) as (tr0 & Tr1 & Tr2). destruct (Ask _ Tr2) as (Ak1 & Ak2). set (trh := TAnswer i r :: tr0 ++ [TQuery i id]).
    assert (Th : w_trace w' = trh ++ w_trace w) by (unfold w', trh; cbn [w_trace add_trace app]; now rewrite Tr1).
    assert (Ah : asked_after k trh = asked_after k (tr0 ++ [TQuery i id])) by reflexivity.
    assert (Te : error_free (w_io w')) by (destruct Qw as (_ & Qw & _); eapply error_free_suffix; eauto).
    (* continuing with the next store *)
    assert (Cont : forall a, (a = true -> store_ok E false w' t' s') -> (i = k -> a = true /\ missing t id) ->
       wp (bind (chain_loop E (S i) l t' id out') (fun '(r, out, l', t) => ret (r, out, mkSub s' a :: l', t)))
         (fun x w2 => let '(r, out2, l', t2) := x in
           quiet none (chain_ev id) w w2 /\ length out2 = length out /\ Forall (sub_ok E false w2 t2) l' /\ same_target t t2 /\ idx_ok (t_idx t2) /\
           ((i <= k)%nat -> live l' (k - i)) /\
           exists tr, w_trace w2 = tr ++ w_trace w /\ NoDup (asked_after k tr) /\ forall p d, In (p, d) (asked_after k tr) -> d = id /\ (i <= p)%nat /\ missing t id)
         (fun _ w2 => exists tr, w_trace w2 = tr ++ w_trace w /\ NoDup (asked_after k tr) /\ forall p d, In (p, d) (asked_after k tr) -> d = id /\ (i <= p)%nat /\ missing t id) w').
    { intros a Ha Hik. assert (Hg2 : guarded (S i) l t' id).
      { destruct (Nat.eq_dec i k) as [Heq|Hne]; [|now apply Hg']. right. split; [lia|]. eapply missing_same; [exact ST|]. now apply Hik. }
      assert (Two : forall w2, (exists tr, w_trace w2 = tr ++ w_trace w' /\ NoDup (asked_after k tr) /\ forall p d, In (p, d) (asked_after k tr) -> d = id /\ (S i <= p)%nat /\ missing t' id) ->
         exists tr, w_trace w2 = tr ++ w_trace w /\ NoDup (asked_after k tr) /\ forall p d, In (p, d) (asked_after k tr) -> d = id /\ (i <= p)%nat /\ missing t id).
      { intros w2 (tr & T1 & T2 & T3). exists (tr ++ trh). split; [now rewrite T1, Th, app_assoc|]. rewrite asked_app, Ah. split.
        - apply NoDup_app2; auto. intros [p d] Hp Hp2. destruct (T3 p d Hp) as (_ & U & _). destruct (Ak2 p d Hp2) as (X & _). injection X as -> ->. lia.
        - intros p d Hp. apply in_app_or in Hp as [Hp|Hp].
          + destruct (T3 p d Hp) as (U1 & U2 & U3). split; [exact U1|]. split; [lia|]. intros e Hin. apply U3. destruct ST as (_ & _ & P). eapply Permutation_in; [exact P|exact Hin].
          + destruct (Ak2 p d Hp) as (X & Y & Z). injection X as -> ->. split; [reflexivity|]. split; [lia|exact Z]. }
      apply wp_bind. eapply wp_mono; [apply (IH (S i) t' out' w')| |].
      - rewrite F, Hino. eapply tgt_in_same; eauto.
      - unfold blen in *. now rewrite Lo.
      - exact Te.
      - eapply subs_ok_stable; [| |exact H2]; auto.
      - exact Hg2.
      - intros [[[r2 out2] l2] t2] w2 (A & B & C & D & G & L & T). apply wp_ret. split; [eapply quiet_trans; eauto|]. split; [congruence|].
        split. { constructor; [|exact C]. intros Ha'. cbn in Ha'. eapply store_ok_stable; [| |apply Ha, Ha'].
          - intros j _. destruct A as (A & _). apply A. exact (fun x => x).
          - apply D. }
        split; [eapply same_target_trans; eauto|]. split; [exact G|]. split; [|now apply Two].
        intros Hi. destruct (Nat.eq_dec i k) as [Heq|Hne].
        + destruct (Hik Heq) as (Ha1 & _). rewrite Heq, Nat.sub_diag. exists (mkSub s' a). split; [reflexivity|]. split; [|exact Ha1]. cbn.
          destruct Hg as [(_ & ss0 & A1 & A2 & _)|(A1 & _)]; [|lia]. rewrite Heq, Nat.sub_diag in A1. cbn in A1. injection A1 as <-. rewrite A2 in K. destruct s'; cbn in K; try contradiction. reflexivity.
        + replace (k - i)%nat with (S (k - S i)) by lia. apply L. lia.
      - intros bd w2 T. now apply Two. }
    assert (Tk : i = k -> (r = Some 0 /\ missing t id) \/ exists m, r = Some m /\ 0 < m).
    { intros Heq. apply Tg. destruct Hg as [(_ & ss0 & A1 & A2 & _)|(A1 & _)]; [|lia]. rewrite Heq, Nat.sub_diag in A1. cbn in A1. congruence. }
    destruct r as [n|]; [destruct (0 <? n) eqn:En|].
    + apply wp_ret. split; [exact Qw|]. split; [exact Lo|]. split.
      { constructor; [intros _; apply So; discriminate|]. eapply subs_ok_stable; [| |exact H2]; auto. }
      split; [exact ST|]. split; [exact Hx|]. split.
      { intros Hi. destruct Hg as [(_ & ss0 & A1 & A2 & A3)|(A1 & _)]; [|lia]. destruct (k - i)%nat as [|j] eqn:Ej.
        - cbn in A1. injection A1 as <-. exists (mkSub s' true). split; [reflexivity|]. split; [|reflexivity]. cbn. rewrite A2 in K. destruct s'; cbn in K; try contradiction. reflexivity.
        - exists ss0. auto. }
      exists trh. split; [exact Th|]. rewrite Ah. split; [exact Ak1|]. intros p d Hp. destruct (Ak2 p d Hp) as (X & Y & Z). injection X as -> ->. split; [reflexivity|]. split; [lia|exact Z].
    + apply Cont; [intros _; apply So; discriminate|]. intros Heq. split; [reflexivity|]. destruct (Tk Heq) as [(_ & A)|(m & A & B)]; [exact A|]. injection A as ->. lia.
    + apply Cont; [discriminate|]. intros Heq. destruct (Tk Heq) as [(A & _)|(m & A & _)]; discriminate.
Qed.

(** ** The entries *)
Variables (w0 : world) (tino : nat) (bound : N).
Hypothesis (Hbound : 60 * (bound + 1) < 2 ^ 64).
Definition present (t : target) (id : bytes) : Prop := exists e, In e (entries t) /\ en_id e = id.
Record UInv (i : N) (st : mstate) (w : world) : Prop := mkUInv {
  ui_files : forall j, j <> tino -> w_files w j = w_files w0 j;
  ui_io : error_free (w_io w);
  ui_alloc : ~ In false (w_alloc w);
  ui_ino : t_ino (m_target st) = tino;
  ui_tgt : tgt_in (w_files w tino) (m_target st);
  ui_size : n_entries (t_idx (m_target st)) <= i;
  ui_chain : exists l, m_store st = Some l /\ Forall (sub_ok E false w (m_target st)) l /\ live l k;
  ui_buf : blen (m_buf st) = BUF_SIZE;
  ui_trace : exists tr, w_trace w = tr ++ w_trace w0 /\ NoDup (asked_after k tr) /\ forall p d, In (p, d) (asked_after k tr) -> present (m_target st) d }.
Definition UStop (w : world) : Prop := (forall j, j <> tino -> w_files w j = w_files w0 j) /\ exists tr, w_trace w = tr ++ w_trace w0 /\ NoDup (asked_after k tr).
Lemma UInv_stop i st w : UInv i st w -> UStop w.
Proof. intros []. split; [assumption|]. destruct ui_trace0 as (tr & A & B & _). eauto. Qed.

Definition unasked (ev : tev) : Prop := match ev with TQuery _ _ => False | _ => True end.
Lemma UStop_quiet (P : tev -> Prop) w w' : (forall ev, P ev -> unasked ev) -> quiet (eq tino) P w w' -> UStop w -> UStop w'.
Proof.
  intros HP (A & _ & _ & _ & tr & B & C) (F & tr1 & D & G). split; [intros j Hj; rewrite A by congruence; auto|]. exists (tr ++ tr1). split; [now rewrite B, D, app_assoc|].
  rewrite asked_app, (asked_none k P); [exact G| |exact C]. intros p id H. exact (HP _ H).
Qed.
Lemma trace_quiet (P : tev -> Prop) (S0 : nat -> Prop) (K : bytes -> Prop) w w' : (forall ev, P ev -> unasked ev) -> quiet S0 P w w' ->
  (exists tr, w_trace w = tr ++ w_trace w0 /\ NoDup (asked_after k tr) /\ forall p d, In (p, d) (asked_after k tr) -> K d) ->
  exists tr, w_trace w' = tr ++ w_trace w0 /\ NoDup (asked_after k tr) /\ forall p d, In (p, d) (asked_after k tr) -> K d.
Proof.
  intros HP (_ & _ & _ & _ & tr & B & C) (tr1 & D & G & H). exists (tr ++ tr1). split; [now rewrite B, D, app_assoc|].
  rewrite asked_app, (asked_none k P); [split; [exact G|exact H]| |exact C]. intros p id X. exact (HP _ X).
Qed.

(** The state after a chunk was added. *)
Lemma UInv_added i st w st' w' (P : tev -> Prop) off len id : (forall ev, P ev -> unasked ev) -> quiet (eq tino) P w w' ->
  forall (Hi : i < bound), (forall j, j <> tino -> w_files w j = w_files w0 j) -> error_free (w_io w) -> ~ In false (w_alloc w) -> t_ino (m_target st) = tino -> tgt_in (w_files w tino) (m_target st) ->
  n_entries (t_idx (m_target st)) <= i -> (exists l, m_store st = Some l /\ Forall (sub_ok E false w (m_target st)) l /\ live l k) ->
  blen (m_buf st') = BUF_SIZE -> m_store st' = m_store st ->
  added off len id (In false (w_alloc w)) (m_target st) (m_target st') -> len <= BUF_SIZE -> (0 < len -> off < OFF_LIMIT /\ off + len <= blen (w_files w' tino)) ->
  blen (w_files w tino) <= blen (w_files w' tino) ->
  (exists tr, w_trace w = tr ++ w_trace w0 /\ NoDup (asked_after k tr) /\ forall p d, In (p, d) (asked_after k tr) -> d = id \/ present (m_target st) d) ->
  UInv (i + 1) st' w'.
Proof.
  intros HP Q Hi Hf He Ha Hino Ht Hn (l & L1 & L2 & L3) Hb Hs (A1 & A2 & A3) Hlen Hoff Hg Htr.
  pose proof Q as (Q1 & Q2 & Q3 & Q4 & Q5). pose proof Ht as (T1 & T2 & T3). rewrite T1 in A3. destruct A3 as (B1 & B2 & B3 & B4 & B5).
  destruct B4 as [B4|(e0 & B4 & B4')]; [contradiction|]. constructor.
  - intros j Hj. rewrite Q1 by congruence. auto.
  - eapply error_free_suffix; eauto.
  - intros X. apply Ha, Q3, X.
  - congruence.
  - split; [congruence|]. split; [exact B1|]. intros e Hin. destruct (B3 e Hin) as [Hold|(-> & Hl)].
    + destruct (T3 _ Hold) as (X1 & X2 & X3). split; [exact X1|]. split; [exact X2|lia].
    + cbn. destruct (Hoff Hl). split; [lia|]. auto.
  - lia.
  - exists l. split; [congruence|]. split; [|exact L3]. eapply subs_ok_stable; [| |exact L2]; [|congruence]. intros j Hj. apply Q1. congruence.
  - exact Hb.
  - apply (trace_quiet P (eq tino) (present (m_target st')) w w' HP Q). destruct Htr as (tr & X & Y & Z). exists tr. split; [exact X|]. split; [exact Y|].
    intros p d Hp. destruct (Z p d Hp) as [->|(e & He1 & He2)]; [exists e0; auto|exists e; split; [apply B2, He1|exact He2]].
Qed.

Lemma UInv_handled i st w h : UInv i st w -> UInv i (mkM (m_store st) (m_target st) (m_last_id st) (m_resuming st) (m_buf st) (m_skipped st) h) w.
Proof. intros []. constructor; auto. Qed.
Lemma wp_progress_u m i st w : UInv i st w -> wp (entry_progress E m st) (fun r w' => fst r = true /\ UInv i (snd r) w') (fun _ w' => UStop w') w.
Proof.
  intros HU. unfold entry_progress. destruct (e_interactive E); [|apply wp_ret; auto]. cbv zeta. apply wp_bind, wp_trace, wp_ret. split; [reflexivity|].
  apply UInv_handled. destruct HU. constructor; auto.
  apply (trace_quiet unasked none _ w _ (fun _ x => x)); [apply (frame_trace none unasked (TProgress (main_percent ((m_handled st + 1) mod M32) m)) Logic.I w)|assumption].
Qed.

(** target_write and what follows; the trace may hold requests for [id], which is about to be added. *)
Lemma wp_write_u m i st w off len id : i < bound ->
  (forall j, j <> tino -> w_files w j = w_files w0 j) -> error_free (w_io w) -> ~ In false (w_alloc w) -> t_ino (m_target st) = tino -> tgt_in (w_files w tino) (m_target st) ->
  n_entries (t_idx (m_target st)) <= i -> (exists l, m_store st = Some l /\ Forall (sub_ok E false w (m_target st)) l /\ live l k) -> blen (m_buf st) = BUF_SIZE ->
  (exists tr, w_trace w = tr ++ w_trace w0 /\ NoDup (asked_after k tr) /\ forall p d, In (p, d) (asked_after k tr) -> d = id \/ present (m_target st) d) ->
  wp (bind (target_write E (m_target st) (m_buf st) len off id) (fun '(ok, t) =>
        let st := m_set st (m_store st) t (m_last_id st) (m_resuming st) (m_buf st) in
        if negb (ok : bool) then ret (false, st) else entry_progress E m st))
     (fun r w' => if fst r then UInv (i + 1) (snd r) w' else UStop w') (fun _ w' => UStop w') w.
Proof.
  intros Hi Hf He Ha Hino Ht Hn Hch Hb Htr. pose proof HE as (HH & Hq & Hbs & Hz).
  assert (HS : UStop w) by (split; [exact Hf|]; destruct Htr as (tr & A & B & _); eauto).
  destruct (blen (m_buf st) <? len) eqn:El.
  { apply wp_bind. unfold target_write. rewrite El. apply wp_ub. exact HS. }
  apply wp_bind. assert (Lb : len <= blen (m_buf st)) by lia.
  assert (HW : forall o D n w', wrote tino o D n w w' -> quiet (eq tino) unasked w w').
  { intros o D n w' (_ & _ & _ & _ & Q). eapply quiet_mono; [| |exact Q]; [auto|]. intros [] X; cbn in *; tauto. }
  apply wp_target_write; auto.
  - intros _. split; [apply Ht|]. change (2 ^ 64) with 18446744073709551616 in *. lia.
  - rewrite Hino. set (D := firstn (N.to_nat len) (m_buf st)). intros t' w' Hw _ Had. cbn [negb]. 
    assert (LD : length D = N.to_nat len) by (unfold D; rewrite firstn_length; unfold blen in *; lia).
    pose proof Hw as (_ & W2 & W3 & _). rewrite firstn_all in W2.
    assert (Lw : (0 < len -> off + len <= blen (w_files w' tino)) /\ blen (w_files w tino) <= blen (w_files w' tino)).
    { rewrite W2. unfold fw, blen. destruct D as [|x D'] eqn:ED; [cbn in LD; lia|]. rewrite length_file_write, LD. lia. }
    eapply wp_mono; [apply (wp_progress_u m (i + 1))| |auto].
    + eapply (UInv_added i st w _ w' unasked off len id (fun _ x => x) (HW _ _ _ _ Hw)); auto; [lia| |apply Lw].
      intros Hl. split; [apply W3; lia|apply Lw, Hl].
    + intros [ok st'] w2 (X & Y). cbn [fst snd] in *. now rewrite X.
  - rewrite Hino. intros n w' Hw _. cbn [negb]. apply wp_ret. cbn [fst snd]. eapply UStop_quiet; [|apply (HW _ _ _ _ Hw)|exact HS]. auto.
  - rewrite Hino. intros bd n w' Hw _ _. eapply UStop_quiet; [|apply (HW _ _ _ _ Hw)|exact HS]. auto.
Qed.

Lemma wp_fetch_u m i st w off len id : i < bound -> length id = 32%nat -> UInv i st w ->
  wp (entry_fetch_write E m off len id st) (fun r w' => if fst r then UInv (i + 1) (snd r) w' else UStop w') (fun _ w' => UStop w') w.
Proof.
  intros Hi Lid HU. pose proof (UInv_stop _ _ _ HU) as HS. destruct HU as [U1 U2 U3 U4 U5 U6 U7 U8 U9]. unfold entry_fetch_write.
  destruct (match m_last_id st with Some _ => _ | None => false end) eqn:El.
  - apply wp_bind, wp_ret. cbn [negb]. apply wp_write_u; auto. destruct U9 as (tr & A & B & C). exists tr. split; [exact A|]. split; [exact B|]. intros p d Hp. right. eauto.
  - destruct U7 as (l & L1 & L2 & L3). rewrite L1. apply wp_bind, wp_bind. unfold store_chain_get_chunk. destruct U9 as (tr & A & B & C).
    assert (Two : forall w' tr2, w_trace w' = tr2 ++ w_trace w -> NoDup (asked_after k tr2) -> (forall p d, In (p, d) (asked_after k tr2) -> d = id /\ (0 <= p)%nat /\ missing (m_target st) id) ->
       exists tr', w_trace w' = tr' ++ w_trace w0 /\ NoDup (asked_after k tr') /\ forall p d, In (p, d) (asked_after k tr') -> d = id \/ present (m_target st) d).
    { intros w' tr2 T1 T2 T3. exists (tr2 ++ tr). split; [now rewrite T1, A, app_assoc|]. rewrite asked_app. split.
      - apply NoDup_app2; auto. intros [p d] Hp Hp2. destruct (T3 _ _ Hp) as (-> & _ & Hm). destruct (C _ _ Hp2) as (e & He1 & He2). exact (Hm e He1 He2).
      - intros p d Hp. apply in_app_or in Hp as [Hp|Hp]; [left; now apply (T3 p d Hp)|right; eauto]. }
    assert (G : quiet none (fun _ => True) w (snd (chain_loop E 0 l (m_target st) id (m_buf st) w))).
    { apply frame_chain_loop; intros; exact Logic.I. }
    assert (G2 := chain_asks id Lid l 0 (m_target st) (m_buf st) w).
    rewrite U4 in G2. specialize (G2 U5 U8 U2 L2 (or_introl (conj (Nat.le_0_l k) (eq_rect_r (live l) L3 (Nat.sub_0_r k))))). unfold wp at 1. unfold wp in G2.
    assert (Bd : (exists tr, w_trace (snd (chain_loop E 0 l (m_target st) id (m_buf st) w)) = tr ++ w_trace w /\ NoDup (asked_after k tr) /\
         forall p d, In (p, d) (asked_after k tr) -> d = id /\ (0 <= p)%nat /\ missing (m_target st) id) -> UStop (snd (chain_loop E 0 l (m_target st) id (m_buf st) w))).
    { intros (tr2 & T1 & T2 & T3). destruct (Two _ _ T1 T2 T3) as (tr' & X & Y & _). split; [|eauto].
      intros j Hj. destruct G as (Q & _). rewrite Q by exact (fun x => x). auto. }
    destruct (chain_loop E 0 l (m_target st) id (m_buf st) w) as [[[[[r buf] ch] t]| | |] w']; cbn [snd] in *; [|now apply Bd..].
    destruct G2 as (A1 & A2 & A3 & A4 & A5 & A6 & tr2 & T1 & T2 & T3). pose proof (Two _ _ T1 T2 T3) as Tr'.
      assert (Ff : forall j, w_files w' j = w_files w j) by (intros j; destruct A1 as (A1 & _); apply A1; exact (fun x => x)).
      destruct (match r with Some _ => _ | None => false end); apply wp_ret; cbn [negb].
      2:{ apply wp_ret. cbn [fst snd]. split; [intros j Hj; rewrite Ff; auto|]. destruct Tr' as (tr' & X & Y & _). eauto. }
      pose proof A4 as (I1 & I2 & I3). apply wp_write_u; auto; cbn [m_set m_store m_target m_buf].
      * intros j Hj. rewrite Ff. auto.
      * destruct A1 as (_ & A1 & _). eapply error_free_suffix; eauto.
      * intros X. apply U3. destruct A1 as (_ & _ & A1 & _). apply A1, X.
      * congruence.
      * rewrite Ff. eapply tgt_in_same; eauto.
      * unfold n_entries, entries in *. now rewrite <- (Permutation_length I3).
      * exists ch. split; [reflexivity|]. split; [exact A3|]. specialize (A6 (Nat.le_0_l _)). now rewrite Nat.sub_0_r in A6.
      * unfold blen in *. now rewrite A2.
      * destruct Tr' as (tr' & X & Y & Z). exists tr'. split; [exact X|]. split; [exact Y|]. intros p d Hp. destruct (Z p d Hp) as [->|(e & E1 & E2)]; [now left|right].
        exists e. split; [eapply Permutation_in; [exact I3|exact E1]|exact E2].
Qed.

Lemma wp_entry_u m i st w off len id : i < bound -> length id = 32%nat -> UInv i st w ->
  wp (entry_cb E m off len id st) (fun r w' => if fst r then UInv (i + 1) (snd r) w' else UStop w') (fun _ w' => UStop w') w.
Proof.
  intros Hi Lid HU. pose proof HE as (HH & Hq & Hbs & Hz). pose proof (UInv_stop _ _ _ HU) as HS. unfold entry_cb. destruct (m_resuming st); [|now apply wp_fetch_u].
  destruct (BUF_SIZE <? len) eqn:El; [apply wp_ret; exact HS|]. pose proof HU as [U1 U2 U3 U4 U5 U6 U7 U8 U9].
  assert (HQ : forall w', quiet0 w w' -> quiet (eq tino) unasked w w').
  { intros w'. apply quiet_mono; [intros j []|]. intros [] X; cbn in *; tauto. }
  apply wp_bind, wp_check_chunk with (b := false); auto.
  - intros _. split; [apply U5|]. change (2 ^ 64) with 18446744073709551616 in *. lia.
  - discriminate.
  - lia.
  - rewrite U4. intros tmp t' w' Q _ Lt Hr _ Ho Had.
    eapply wp_mono; [apply (wp_progress_u m (i + 1))| |auto].
    + eapply (UInv_added i st w _ w' unasked off len id (fun _ x => x) (HQ _ Q)); auto; cbn [m_buf m_target m_store].
      * unfold blen in *. now rewrite Lt.
      * lia.
      * rewrite (quiet0_files _ _ Q). intros Hl. split; [auto|]. destruct Hr; lia.
      * rewrite (quiet0_files _ _ Q). lia.
      * destruct U9 as (tr & A & B & C). exists tr. split; [exact A|]. split; [exact B|]. intros p d Hp. right. eauto.
    + intros [ok st'] w2 (X & Y). cbn [fst snd] in *. now rewrite X.
  - intros r tmp w' Q Hr Lt _ _.
    assert (HU' : UInv i (m_set st (m_store st) (m_target st) (m_last_id st) false tmp) w').
    { pose proof Q as (_ & Q2 & Q3 & _). constructor; cbn [m_set m_buf m_target m_store]; auto.
      - intros j Hj. rewrite (quiet0_files _ _ Q). auto.
      - eapply error_free_suffix; eauto.
      - now rewrite (quiet0_files _ _ Q).
      - destruct U7 as (l & L1 & L2 & L3). exists l. split; [exact L1|]. split; [|exact L3]. eapply subs_ok_stable; [| |exact L2]; [|reflexivity]. intros j _. apply (quiet0_files _ _ Q).
      - unfold blen in *. now rewrite Lt.
      - eapply trace_quiet; [|exact Q|exact U9]. intros [] X; cbn in *; tauto. }
    destruct r as [[|]|]; [congruence|now apply wp_fetch_u|now apply wp_fetch_u].
  - intros bd w' Q _. eapply UStop_quiet; [|apply (HQ _ Q)|exact HS]. auto.
Qed.
End Unique.

Lemma UInv_io E k w0 tino i st w ev : suffix ev (w_io w) -> UInv E k w0 tino i st w -> UInv E k w0 tino i st (set_io ev w).
Proof. intros Hs []. constructor; auto. cbn. eapply error_free_suffix; eauto. Qed.
Lemma UInv_more E k w0 tino i i' st w : i <= i' -> UInv E k w0 tino i st w -> UInv E k w0 tino i' st w.
Proof. intros Hi []. constructor; auto. lia. Qed.

Lemma wp_run_u E argv w wk su w1 k : sane E argv w -> error_free (w_io w1) -> ~ In false (w_alloc w1) -> nth_error (cmd_stores argv) k = Some (cmd_target argv) ->
  started w wk -> ready E false argv w wk su w1 -> UStop k w1 (t_ino (su_target su)) (snd (run_sync E su w1)).
Proof.
  intros HS He Ha Hk Hst HR. pose proof (ready_files _ _ _ _ _ _ _ Hst HR) as Hfil. destruct HS as [HE Hsv Hes Hf Hargs Hhelp Hix Hal Hd].
  destruct HR as [R1 R2 R3 R4 R5 R6 R7 (l & R8 & R9 & R10)].
  set (f := w_files w (su_index su)) in *. set (n := N.to_nat (su_n su)) in *. set (tino := t_ino (su_target su)) in *.
  assert (Hn : su_n su = N.of_nat n) by (unfold n; lia).
  assert (Hne : su_index su <> tino) by (intros Heq; apply (Hix tino R3); rewrite R2; congruence).
  assert (Hlen : (64 + 40 * n <= length f)%nat) by (eapply valid_length; eauto). destruct (Hf (su_index su)) as (Hok & Hlim). fold f in Hok, Hlim.
  assert (Hb : 60 * (N.of_nat n + 1) < 2 ^ 64). { unfold blen, OFF_LIMIT in Hlim. change (2 ^ 64) with 18446744073709551616. lia. }
  assert (Hq : t_queryable (su_target su) = true). { apply R7. apply nth_error_In in Hk. apply in_map_iff. exists (cmd_target argv). split; [|exact Hk]. unfold classify_arg. now rewrite beq_refl. }
  assert (Hlv : live l k).
  { destruct (Forall2_at _ _ _ R10 k _ Hk) as (ss & A & B). exists ss. destruct B as (B1 & B2). unfold classify_arg in B2. rewrite beq_refl in B2.
    split; [exact A|]. split; [destruct (ss_store ss); tauto|exact B1]. }
  destruct (R6 Hq) as (X1 & X2 & _).
  assert (HU : UInv E k w1 tino 0 (initial_mstate su) w1).
  { assert (Hbuf : blen (repeat 0 (N.to_nat BUF_SIZE)) = BUF_SIZE) by (unfold blen; rewrite repeat_length; apply N2Nat.id).
    unfold initial_mstate. constructor; cbn [m_target m_store m_buf]; auto.
    - split; [exact Hq|]. split; [exact X1|]. intros e Hin. unfold entries in Hin. rewrite X2 in Hin. destruct Hin.
    - unfold n_entries. rewrite X2. cbn. lia.
    - exists l. auto.
    - exists []. split; [reflexivity|]. split; [constructor|]. intros p d []. }
  apply (wp_final _ (run_sync E su) (UStop k w1 tino)). unfold run_sync, caibx_iterate_entries. apply wp_bind. fold n. rewrite Hn at 1.
  change 0 with (N.of_nat 0) at 1.
  rewrite Hn.
  assert (QS : forall w2 w3, quiet none never w2 w3 -> UStop k w1 tino w2 -> UStop k w1 tino w3).
  { intros w2 w3 Q. apply UStop_quiet with (P := never); [intros ev []|]. eapply quiet_mono; [| |exact Q]; [intros j []|auto]. }
  eapply wp_mono; [apply (iterate_prefix_rule (entry_cb E (N.of_nat n)) (su_index su) (su_params su) f n Hok Hlen Hlim
     (fun i _ st w2 => UInv E k w1 tino (N.of_nat i) st w2) (fun _ w2 => UStop k w1 tino w2) (fun _ w2 => UStop k w1 tino w2))|..].
  - intros i last st w2 HI. rewrite (ui_files _ _ _ _ _ _ _ HI) by exact Hne. apply Hfil.
  - intros i last st w2 ev Hi HI Hs _. pose proof (UInv_io _ _ _ _ _ _ _ _ Hs HI) as HI'. destruct (skipped _ _ _ _ _); [eapply UInv_more; [|exact HI']; lia|].
    replace (N.of_nat (S i)) with (N.of_nat i + 1) by lia. eapply (wp_entry_u E k HE Hsv w1 tino (N.of_nat n) Hb); [lia| |exact HI'].
    apply ent_id_length with (n := n); auto.
  - intros i last st w2 ev Hi HI Hs Hne2. elim Hne2. apply HI.
  - intros i last st w2 Hi HI _. eapply UInv_stop, UInv_io; [|exact HI]. exists (w_io w2). now rewrite app_nil_r.
  - lia.
  - exact HU.
  - intros [ok st] w2 H. cbn [fst snd] in H. destruct ok; cbn [negb]; [|apply wp_ret; exact H]. destruct H as (_ & HI). pose proof (UInv_stop _ _ _ _ _ _ _ HI) as HS2.
    destruct (m_store st) as [ch|]; [|apply wp_ub; exact HS2]. apply (wp_frame none never); [apply frame_bind; [apply frame_chain_free|intros; apply frame_ret]|].
    apply wp_bind. apply wp_any; [|intros bd w3 Q; eapply QS; eauto]. intros _ w3. apply wp_ret. intros Q. eapply QS; eauto.
  - auto.
Qed.

Lemma asked_once E argv w k : sane E argv w -> error_free (w_io w) -> ~ In false (w_alloc w) -> nth_error (cmd_stores argv) k = Some (cmd_target argv) ->
  exists tr, run_trace w (snd (main E argv w)) tr /\ NoDup (asked_after k tr).
Proof.
  intros HS He Ha Hk. pose proof (wp_init E false argv w HS ltac:(discriminate)) as H. rewrite main_init. unfold bind, wp in *.
  assert (Q0 : forall wk w1, started w wk -> quiet0 wk w1 -> error_free (w_io w1) /\ ~ In false (w_alloc w1) /\ exists tr, run_trace w w1 tr /\ asked_after k tr = []).
  { intros wk w1 (kc & ->) (_ & Q2 & Q3 & _ & tr & Q4 & Q5). split; [eapply error_free_suffix; eauto|]. split; [intros X; apply Ha; exact (Q3 _ X)|].
    exists tr. split; [exact Q4|]. apply (asked_none k store_ev); auto. }
  assert (QN : forall w1, (exists wk, started w wk /\ quiet0 wk w1) -> exists tr, run_trace w w1 tr /\ NoDup (asked_after k tr)).
  { intros w1 (wk & A & B). destruct (Q0 _ _ A B) as (_ & _ & tr & C & D). exists tr. rewrite D. split; [exact C|constructor]. }
  destruct (init E argv w) as [[[su| |c]| | |] w1].
  - destruct H as (wk & A & B & C). destruct (Q0 _ _ A B) as (D1 & D2 & tr & D3 & D4).
    destruct (wp_run_u E argv w wk su w1 k HS D1 D2 Hk A C) as (_ & tr2 & F & G). exists (tr2 ++ tr). unfold run_trace in *. split.
    + now rewrite F, D3, app_assoc.
    + now rewrite asked_app, D4, app_nil_r.
  - apply QN. destruct H as (wk & A & B & _). eauto.
  - apply QN. destruct H as (wk & A & B & _). eauto.
  - apply QN. destruct H as (_ & H). exact H.
  - apply QN. destruct H as (_ & H). exact H.
  - apply QN. destruct H as (_ & H). exact H.
Qed.
