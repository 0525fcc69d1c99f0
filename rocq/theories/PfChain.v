(** The store chain: its invariant and what its answers are. *)
From Coq Require Import Sorting.Permutation.
From Verif Require Import Base Lib Utils Sha Chunker Index StoreLocal Target StoreHttp Chain SpecBasic SpecEnv SpecChunker SpecStore SpecHttp
  PfUtils PfBasic PfIO PfRead PfIndex PfFrame PfLocal PfHttp PfTarget.
Local Open Scope N_scope.

Definition same_kind (s s' : store) : Prop :=
  match s, s' with
  | SLocal a, SLocal b => ls_ino b = ls_ino a /\ ls_params b = ls_params a
  | SHttp a, SHttp b => same_store a b
  | STarget, STarget => True
  | _, _ => False
  end.
Definition same_sub (a b : substore) : Prop := same_kind (ss_store a) (ss_store b) /\ (ss_active b = true -> ss_active a = true).
Lemma same_kind_refl s : same_kind s s. Proof. destruct s; cbn; repeat split. Qed.
Lemma same_sub_refl s : same_sub s s. Proof. split; [apply same_kind_refl|auto]. Qed.
Lemma same_subs_refl l : Forall2 same_sub l l. Proof. induction l; constructor; auto using same_sub_refl. Qed.

(** Events of a request for [id] *)
Definition chain_ev (id : bytes) (ev : tev) : Prop :=
  match ev with TQuery _ d => d = id | TAnswer _ _ | TPerform _ | TSleep _ | TScan _ => True | _ => False end.

Lemma quiet_mono (S1 : nat -> Prop) (P1 : tev -> Prop) (S2 : nat -> Prop) (P2 : tev -> Prop) w w' : (forall i, S1 i -> S2 i) -> (forall e, P1 e -> P2 e) -> quiet S1 P1 w w' -> quiet S2 P2 w w'.
Proof.
  intros HS HP (A & B & C & D & (tr & F & G)). split; [intros i Hi; apply A; intros H; apply Hi, HS, H|].
  split; [exact B|]. split; [exact C|]. split; [exact D|]. exists tr. split; [exact F|]. eapply Forall_impl; [|exact G]. exact HP.
Qed.
Lemma quiet0_chain id w w' : quiet0 w w' -> quiet none (chain_ev id) w w'.
Proof. apply quiet_mono; [auto|]. intros [] H; cbn in *; tauto. Qed.

Section Chain.
Variables (E : env) (b : bool) (cp : params).
Hypothesis (HE : env_ok E) (Hsv : server_ok E).

Definition store_ok (w : world) (t : target) (s : store) : Prop :=
  match s with
  | SLocal ls => ls_ino ls <> t_ino t /\ (exists D, disc_of (ls_params ls) D) /\ p_max (ls_params ls) <= UINT32_MAX /\
                 blen (w_files w (ls_ino ls)) < OFF_LIMIT /\ ls_ok E b (w_files w (ls_ino ls)) ls
  | SHttp hs => http_ok hs
  | STarget => True
  end.
Definition sub_ok (w : world) (t : target) (ss : substore) : Prop := ss_active ss = true -> store_ok w t (ss_store ss).

Lemma store_ok_stable w w' t t' s : (forall i, i <> t_ino t -> w_files w' i = w_files w i) -> t_ino t' = t_ino t -> store_ok w t s -> store_ok w' t' s.
Proof. intros Hf Ht. destruct s; cbn; auto. intros (A & B & C & D & F). rewrite Hf by exact A. rewrite Ht. auto. Qed.
Lemma subs_ok_stable w w' t t' l : (forall i, i <> t_ino t -> w_files w' i = w_files w i) -> t_ino t' = t_ino t ->
  Forall (sub_ok w t) l -> Forall (sub_ok w' t') l.
Proof. intros Hf Ht. apply Forall_impl. intros ss H Ha. eapply store_ok_stable; eauto. Qed.

Lemma tgt_ok_same g bound t t' : same_target t t' -> (t_queryable t = true -> idx_ok (t_idx t')) -> tgt_ok E b g bound t -> tgt_ok E b g bound t'.
Proof.
  intros (A & B & P) Hx H Hq. rewrite B in Hq. split; [auto|]. intros e He. apply H; [exact Hq|]. eapply Permutation_in; [symmetry; exact P|exact He].
Qed.

Lemma wp_store_get bound s t id out w :
  length id = 32%nat -> hash_mode b w -> tgt_ok E b (w_files w (t_ino t)) bound t -> bound <= blen (w_files w (t_ino t)) -> store_ok w t s ->
  wp (store_get_chunk E s t id out) (fun x w' => let '(r, out', s', t') := x in
       quiet0 w w' /\ authentic E b (id, out) (r, out') /\ (r <> None -> store_ok w' t' s') /\ same_kind s s' /\ same_target t t' /\
       (t_queryable t = true -> idx_ok (t_idx t')))
     (fun bd w' => quiet0 w w' /\ bd <> BUB) w.
Proof.
  destruct HE as (HH & Hq & Hb & Hz). intros Lid Hm Ht Hbd Hs. unfold store_get_chunk. destruct s as [ls|hs|]; apply wp_bind.
  - cbn in Hs. destruct Hs as (A & (D & HD) & Hmax & Hlen & Hls).
    apply wp_local_get with (b := b) (D := D); auto.
    + intros [[r out'] ls'] tr w' Q Htr G. apply wp_ret. apply got_authentic in G as (G1 & G2 & G3 & G4).
      split; [exact Q|]. split; [exact G1|]. split; [|split; [cbn; auto|split; [apply same_target_refl|intros Eq; apply Ht, Eq]]].
      intros Hr. cbn. rewrite G2, G3, (quiet0_files _ _ Q). split; [exact A|]. split; [eauto|]. split; [exact Hmax|]. split; [exact Hlen|auto].
    + intros w' Q _. split; [exact Q|discriminate].
    + intros w' Q _ _ _ _. split; [exact Q|discriminate].
  - apply (wp_frame none store_ev); [apply frame_http_get; intros; exact I|].
    eapply wp_mono; [apply (wp_http_get E b hs id out w Hz Hsv Hs Lid Hm)| |].
    + intros [[r out'] hs'] w' (A & B & C & _) Q. apply wp_ret. split; [exact Q|]. split; [exact A|]. split; [intros _; exact B|].
      split; [exact C|]. split; [apply same_target_refl|]. intros Eq. apply Ht, Eq.
    + intros bd w' (-> & _) Q. split; [exact Q|discriminate].
  - apply wp_target_get with (b := b) (bound := bound); auto.
    + intros r out' t' w' Q _ A S I _ _. apply wp_ret. split; [exact Q|]. split; [exact A|]. split; [intros _; cbn; exact Logic.I|]. split; [exact Logic.I|]. auto.
    + intros w' Q _. split; [exact Q|discriminate].
Qed.

Lemma wp_chain_loop bound id : length id = 32%nat -> forall l i t out w,
  hash_mode b w -> tgt_ok E b (w_files w (t_ino t)) bound t -> bound <= blen (w_files w (t_ino t)) -> Forall (sub_ok w t) l ->
  wp (chain_loop E i l t id out) (fun x w' => let '(r, out', l', t') := x in
       quiet none (chain_ev id) w w' /\ authentic E b (id, out) (r, out') /\ Forall (sub_ok w' t') l' /\ Forall2 same_sub l l' /\ same_target t t' /\
       (t_queryable t = true -> idx_ok (t_idx t')))
     (fun bd w' => quiet none (chain_ev id) w w' /\ bd <> BUB) w.
Proof.
  intros Lid. induction l as [|ss l IH]; intros i t out w Hm Ht Hbd Hl; cbn [chain_loop].
  - apply wp_ret. split; [apply quiet_refl|]. split; [split; [reflexivity|cbn; lia]|]. split; [constructor|]. split; [constructor|].
    split; [apply same_target_refl|]. intros Eq. apply Ht, Eq.
  - inversion Hl as [|? ? H1 H2]; subst. destruct (ss_active ss) eqn:Ea; cbn [negb].
    2:{ apply wp_bind. eapply wp_mono; [apply IH; auto| |auto]. intros [[[r out'] l'] t'] w' (A & B & C & D & F & G). apply wp_ret.
        split; [exact A|]. split; [exact B|]. split; [constructor; [intros Hc; congruence|exact C]|]. split; [constructor; [apply same_sub_refl|exact D]|auto]. }
    apply wp_bind, wp_trace, wp_bind. set (w1 := add_trace _ w).
    assert (Q1 : quiet none (chain_ev id) w w1) by (apply (frame_trace none (chain_ev id) (TQuery i id) eq_refl w)).
    eapply wp_mono; [apply (wp_store_get bound (ss_store ss) t id out w1); auto| |].
    2:{ intros bd w' (Q & Hb). split; [eapply quiet_trans; [exact Q1|]; now apply quiet0_chain|exact Hb]. }
    intros [[[r out'] s'] t'] w0' (Q & A & So & K & ST & I). apply wp_bind, wp_trace. set (w' := add_trace _ w0').
    assert (F : forall j, w_files w' j = w_files w j) by (intros j; apply (quiet0_files _ _ Q)).
    assert (Qw : quiet none (chain_ev id) w w').
    { eapply quiet_trans; [exact Q1|]. eapply quiet_trans; [apply quiet0_chain; exact Q|]. apply (frame_trace none (chain_ev id) (TAnswer i r) Logic.I w0'). }
    change (r <> None -> store_ok w' t' s') in So.
    assert (Hino : t_ino t' = t_ino t) by apply ST.
    assert (C1 : forall r' out2 l' t2 w2 a, (a = true -> store_ok w' t' s') ->
       (quiet none (chain_ev id) w' w2 /\ authentic E b (id, out') (r', out2) /\ Forall (sub_ok w2 t2) l' /\ Forall2 same_sub l l' /\ same_target t' t2 /\
         (t_queryable t' = true -> idx_ok (t_idx t2))) ->
       quiet none (chain_ev id) w w2 /\ authentic E b (id, out) (r', out2) /\ Forall (sub_ok w2 t2) (mkSub s' a :: l') /\
         Forall2 same_sub (ss :: l) (mkSub s' a :: l') /\ same_target t t2 /\ (t_queryable t = true -> idx_ok (t_idx t2))).
    { intros r' out2 l' t2 w2 a Ha (B1 & (B2 & B2') & B3 & B4 & B5 & B6). split; [eapply quiet_trans; eauto|].
      split. { split; cbn [fst snd] in *; [destruct A as (A & _); cbn in A; congruence|]. destruct r' as [n|]; [|exact Logic.I]. intros Hn. destruct (B2' Hn) as (B7 & B8).
        split; [|exact B8]. destruct A as (A & _). cbn in A. unfold blen in *. rewrite <- A. exact B7. }
      split. { constructor; [|exact B3]. intros Ha'. cbn in Ha'. eapply store_ok_stable; [| |apply Ha, Ha'].
        - intros j _. destruct B1 as (B1 & _). apply B1. exact (fun x => x).
        - apply B5. }
      split; [constructor; [split; [exact K|auto]|exact B4]|]. split; [eapply same_target_trans; eauto|].
      intros Eq. apply B6. destruct ST as (_ & -> & _). exact Eq. }
    assert (IH' : wp (chain_loop E (S i) l t' id out') (fun x w2 => let '(r, out2, l', t2) := x in
       quiet none (chain_ev id) w' w2 /\ authentic E b (id, out') (r, out2) /\ Forall (sub_ok w2 t2) l' /\ Forall2 same_sub l l' /\ same_target t' t2 /\
       (t_queryable t' = true -> idx_ok (t_idx t2))) (fun bd w2 => quiet none (chain_ev id) w' w2 /\ bd <> BUB) w').
    { apply IH.
      - intros Hb. destruct Qw as (_ & _ & _ & Qw & _). apply Qw, Hm, Hb.
      - rewrite F, Hino. eapply tgt_ok_same; eauto.
      - rewrite F, Hino. exact Hbd.
      - eapply subs_ok_stable; [| |exact H2]; auto. }
    destruct r as [n|]; [destruct (0 <? n) eqn:En|].
    + apply wp_ret. split; [exact Qw|]. split; [exact A|]. split; [|split; [|auto]].
      * constructor; [intros _; apply So; discriminate|]. eapply subs_ok_stable; [| |exact H2]; auto.
      * constructor; [split; [exact K|auto]|apply same_subs_refl].
    + apply wp_bind. eapply wp_mono; [exact IH'| |].
      * intros [[[r2 out2] l2] t2] w2 H. apply wp_ret. apply C1; [intros _; apply So; discriminate|exact H].
      * intros bd w2 (Q2 & Hb). split; [eapply quiet_trans; eauto|exact Hb].
    + apply wp_bind. eapply wp_mono; [exact IH'| |].
      * intros [[[r2 out2] l2] t2] w2 H. apply wp_ret. apply C1; [discriminate|exact H].
      * intros bd w2 (Q2 & Hb). split; [eapply quiet_trans; eauto|exact Hb].
Qed.
End Chain.
