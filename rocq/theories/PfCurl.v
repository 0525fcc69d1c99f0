(** Proofs about the options of the curl handles (C108). *)
From Verif Require Import Base Lib Utils Sha StoreHttp SpecBasic SpecHttp PfHttp Curl SpecCurl.
Local Open Scope N_scope.

Lemma upd_same {A} (f : nat -> A) i a : upd f i a i = a. Proof. unfold upd. now rewrite Nat.eqb_refl. Qed.
Lemma upd_other {A} (f : nat -> A) i a j : j <> i -> upd f i a j = f j.
Proof. intros H. unfold upd. destruct (Nat.eqb_spec j i); [contradiction|reflexivity]. Qed.
Lemma copt_eqb_spec a b : reflect (a = b) (copt_eqb a b).
Proof. destruct a, b; constructor; congruence. Qed.
Lemma h_set_same h o v : h_set h o v o = v. Proof. unfold h_set. now destruct o. Qed.
Lemma h_set_other h o v x : x <> o -> h_set h o v x = h x.
Proof. intros H. unfold h_set. destruct (copt_eqb_spec x o); [contradiction|reflexivity]. Qed.

(** Only the answers that are left, and perhaps one handle, differ. *)
Record near (h : nat) (w w' : cworld) : Prop := mkNear {
  nr_handles : forall g, g <> h -> c_handles w' g = c_handles w g;
  nr_next : c_next w' = c_next w; nr_mem : c_mem w' = c_mem w; nr_calls : c_calls w' = c_calls w;
  nr_ctx : c_ctx w' = c_ctx w; nr_log : c_log w' = c_log w;
  nr_silent : c_answers w = [] -> c_answers w' = [] }.
Lemma near_refl h w : near h w w. Proof. now constructor. Qed.
Lemma near_trans h a b c : near h a b -> near h b c -> near h a c.
Proof.
  intros [A1 A2 A3 A4 A5 A6 A7] [B1 B2 B3 B4 B5 B6 B7]. constructor; try congruence; [|auto].
  intros g Hg. rewrite B1, A1 by assumption. reflexivity.
Qed.

Lemma ask_spec w : exists a l, c_ask w = Some (a, mkCW (c_handles w) (c_next w) (c_mem w) (c_calls w) (c_ctx w) l (c_log w)) /\
  (c_answers w = [] -> l = [] /\ fst a = true).
Proof.
  unfold c_ask. destruct (c_answers w) as [|a l] eqn:D.
  - exists (true, true), []. split; [destruct w; cbn in *; now subst|auto].
  - exists a, l. split; [reflexivity|discriminate].
Qed.

Lemma setopt_spec h o v w opts : c_handles w h = Some opts ->
  exists b w' opts', curl_easy_setopt h o v w = Some (b, w') /\ near h w w' /\ c_handles w' h = Some opts' /\
    (forall x, x <> o -> opts' x = opts x) /\ (b = true -> opts' o = Some v) /\ (b = false -> opts' o = opts o \/ opts' o = None) /\
    (c_answers w = [] -> b = true).
Proof.
  intros H. unfold curl_easy_setopt, cbind, c_get_handle. rewrite H.
  destruct (ask_spec w) as (a & l & E & S). rewrite E. unfold c_set_handle, cret. cbn [c_handles c_next c_mem c_calls c_ctx c_answers c_log].
  eexists (fst a), _, _. split; [reflexivity|]. split; [|split; [apply upd_same|]].
  - constructor; cbn; try reflexivity; [|intros D; apply S, D]. intros g Hg. now apply upd_other.
  - split; [intros x Hx; now apply h_set_other|]. rewrite h_set_same. split; [now intros ->|]. split; [|intros D; apply S, D].
    intros ->. destruct (snd a); auto.
Qed.

(** The options that were given, and an error buffer that can be written to *)
Definition errs (i : nat) (o : handle) : Prop := o O_ERRORBUFFER = None \/ o O_ERRORBUFFER = Some (VErrBuf i).
Record five (i : nat) (o : handle) : Prop := mkFive {
  fv_fun : o O_WRITEFUNCTION = Some VDataCb; fv_err : o O_ERRORBUFFER = Some (VErrBuf i); fv_follow : o O_FOLLOWLOCATION = Some (VLong 1);
  fv_time : o O_LOW_SPEED_TIME = Some (VLong 15); fv_limit : o O_LOW_SPEED_LIMIT = Some (VLong 10) }.

Lemma options_spec i h : forall l w opts, c_handles w h = Some opts -> errs i opts -> NoDup (map fst l) -> (forall v, In (O_ERRORBUFFER, v) l -> v = VErrBuf i) ->
  exists b w' opts', set_options h l w = Some (b, w') /\ near h w w' /\ c_handles w' h = Some opts' /\ errs i opts' /\
    (b = true -> (forall o v, In (o, v) l -> opts' o = Some v) /\ (forall o, ~ In o (map fst l) -> opts' o = opts o)) /\ (c_answers w = [] -> b = true).
Proof.
  induction l as [|[o v] l IH]; intros w opts H He Hnd Hv; cbn [set_options].
  - exists true, w, opts. repeat split; auto using near_refl. intros o v [].
  - destruct (setopt_spec h o v w opts H) as (b & w1 & o1 & E & N1 & H1 & K & Kt & Kf & Ks). unfold cbind. rewrite E.
    assert (He1 : errs i o1).
    { destruct (copt_eqb_spec o O_ERRORBUFFER) as [->|X].
      - destruct b; [right; rewrite Kt by reflexivity; f_equal; apply Hv; left; reflexivity|]. destruct (Kf eq_refl) as [F|F]; unfold errs in *; rewrite F; auto.
      - unfold errs. rewrite K by congruence. exact He. }
    destruct b.
    + inversion Hnd as [|x y Hn Hnd']; subst. cbn [fst] in Hn.
      destruct (IH w1 o1 H1 He1 Hnd' (fun v' Hin => Hv v' (or_intror Hin))) as (b' & w2 & o2 & E2 & N2 & H2 & He2 & Y & S2).
      exists b', w2, o2. split; [exact E2|]. split; [eapply near_trans; eassumption|]. split; [exact H2|]. split; [exact He2|]. split.
      * intros ->. destruct (Y eq_refl) as [Y1 Y2]. split.
        -- intros o' v' [Q|Q]; [injection Q as <- <-; rewrite Y2 by exact Hn; now apply Kt|now apply Y1].
        -- intros o' Hn'. cbn in Hn'. rewrite Y2 by tauto. apply K. intros ->. tauto.
      * intros D. apply S2. now apply (nr_silent _ _ _ N1).
    + exists false, w1, o1. split; [reflexivity|]. split; [exact N1|]. split; [exact H1|]. split; [exact He1|]. split; [discriminate|]. intros D. exact (Ks D).
Qed.

Lemma five_of i o : (forall x v, In (x, v) (new_options i) -> o x = Some v) -> five i o.
Proof. intros H. constructor; apply H; cbn; tauto. Qed.

(** The state between two operations *)
Record inv (ops : list cop) (st : stores) (w : cworld) : Prop := mkInv {
  iv_no : forall i s, nth i st None = Some s -> cs_no s = i /\ c_mem w i = true /\ (cs_curl s < c_next w)%nat /\ nth_error (news ops) i = Some (cs_hs s) /\
            exists o, c_handles w (cs_curl s) = Some o /\ five i o;
  iv_apart : forall i j s t, nth i st None = Some s -> nth j st None = Some t -> cs_curl s = cs_curl t -> i = j;
  iv_log : Forall (proper ops) (c_log w);
  iv_calls : Forall (fun x => (x_call x <= c_calls w)%nat) (c_log w);
  iv_tries : forall c, (n_call c (c_log w) <= CONNECT_TRIES)%nat }.

Lemma n_call_new c l : Forall (fun x => (x_call x < c)%nat) l -> n_call c l = 0%nat.
Proof. induction 1 as [|x l H _ IH]; cbn; [reflexivity|]. destruct (Nat.eqb_spec (x_call x) c); [lia|exact IH]. Qed.

(** All that a request changes: the handle of the store, and the transfers *)
Record after (s : cstore) (id : bytes) (c n : nat) (o : handle) (w w' : cworld) : Prop := mkAfter {
  af_handles : c_handles w' = c_handles w;
  af_next : c_next w' = c_next w; af_mem : c_mem w' = c_mem w; af_calls : c_calls w' = c_calls w; af_ctx : c_ctx w' = c_ctx w;
  af_log : c_log w' = repeat (mkTransfer (cs_no s) id o c) n ++ c_log w; af_silent : c_answers w = [] -> c_answers w' = [] }.

Lemma retried_spec s id o : forall rem w, c_handles w (cs_curl s) = Some o -> five (cs_no s) o -> c_mem w (cs_no s) = true ->
  o O_WRITEDATA = Some (VCtx (c_calls w)) -> c_ctx w = Some (c_calls w, cs_no s) ->
  exists b w' n, retried_o s id rem w = Some (b, w') /\ (n <= rem)%nat /\ after s id (c_calls w) n o w w' /\ (c_answers w = [] -> (0 < rem)%nat -> n = 1%nat).
Proof.
  induction rem as [|rem IH]; intros w H F Hm Hd Hc; cbn [retried_o].
  - exists false, w, 0%nat. split; [reflexivity|]. split; [lia|]. split; [constructor; auto|]. lia.
  - unfold cbind at 1, curl_easy_perform_o. unfold cbind at 1, c_get_handle. rewrite H. unfold cbind at 1.
    assert (G : errbuf_ok w o && data_ok w (cs_no s) o = true).
    { unfold errbuf_ok, data_ok. rewrite (fv_err _ _ F), Hm, (fv_fun _ _ F), Hd, Hc, !Nat.eqb_refl. reflexivity. }
    rewrite G. unfold cbind at 1. set (w1 := mkCW _ _ _ _ _ _ _).
    destruct (ask_spec w1) as (a & l & E & S). rewrite E. unfold cret. set (w2 := mkCW _ _ _ _ _ l _) in *.
    destruct (fst a) eqn:A.
    + exists true, w2, 1%nat. split; [reflexivity|]. split; [lia|]. split; [|lia]. constructor; try reflexivity. intros D. apply S, D.
    + destruct (IH w2 H F Hm Hd Hc) as (b & w3 & n & E3 & L & A3 & S3). exists b, w3, (Datatypes.S n). split; [exact E3|]. split; [lia|]. split.
      * destruct A3 as [B1 B2 B3 B4 B5 B6 B7]. constructor; try assumption.
        -- rewrite B6. change (c_calls w2) with (c_calls w). change (c_log w2) with (mkTransfer (cs_no s) id o (c_calls w) :: c_log w).
           change (mkTransfer (cs_no s) id o (c_calls w) :: c_log w) with ([mkTransfer (cs_no s) id o (c_calls w)] ++ c_log w).
           rewrite app_assoc. f_equal. symmetry. exact (repeat_cons n _).
        -- intros D. apply B7. apply S, D.
      * intros D. exfalso. destruct (S D) as [_ X]. congruence.
Qed.

(** What a request leaves of the world *)
Record asked (s : cstore) (id : bytes) (w w' : cworld) : Prop := mkAsked {
  ak_handles : forall g, g <> cs_curl s -> c_handles w' g = c_handles w g;
  ak_own : exists o, c_handles w' (cs_curl s) = Some o /\ five (cs_no s) o;
  ak_next : c_next w' = c_next w; ak_mem : c_mem w' = c_mem w; ak_calls : (c_calls w <= c_calls w')%nat;
  ak_log : exists n o c, c_log w' = repeat (mkTransfer (cs_no s) id o c) n ++ c_log w /\ (n <= CONNECT_TRIES)%nat /\ (c <= c_calls w')%nat /\ ((0 < n)%nat -> (c_calls w < c)%nat /\
              five (cs_no s) o /\ o O_URL = Some (VStr (chunk_url (cs_hs s) id)) /\ o O_WRITEDATA = Some (VCtx c)) /\ (c_answers w = [] -> n = 1%nat);
  ak_silent : c_answers w = [] -> c_answers w' = [] }.

Lemma five_keep i o o' : five i o -> (forall x, x <> O_URL -> x <> O_WRITEDATA -> o' x = o x) -> five i o'.
Proof. intros [A B C D E] K. constructor; rewrite K by discriminate; assumption. Qed.

Lemma get_spec s id w o : c_handles w (cs_curl s) = Some o -> five (cs_no s) o -> c_mem w (cs_no s) = true ->
  exists b w', get_chunk_o s id w = Some (b, w') /\ asked s id w w'.
Proof.
  intros H F Hm. unfold get_chunk_o.
  destruct (setopt_spec (cs_curl s) O_URL (VStr (chunk_url (cs_hs s) id)) w o H) as (b & w1 & o1 & E1 & N1 & H1 & K1 & Kt & Kf & Ks).
  assert (F1 : five (cs_no s) o1) by (apply (five_keep _ o _ F); intros; now apply K1).
  unfold cbind at 1. rewrite E1. destruct b; cbn [negb].
  2:{ unfold cret. exists false, w1. split; [reflexivity|]. destruct N1 as [A1 A2 A3 A4 A5 A6 A7]. apply mkAsked; [exact A1|exists o1; split; assumption|exact A2|exact A3|rewrite A4; lia| |exact A7].
      exists 0%nat, o1, 0%nat. cbn. split; [exact A6|]. split; [lia|]. split; [lia|]. split; [lia|]. intros D. apply Ks in D. discriminate. }
  set (m := match hs_key (cs_hs s) with Some _ => c_ask | None => cret (true, true) end).
  assert (Hm' : exists a w2, m w1 = Some (a, w2) /\ near (cs_curl s) w1 w2 /\ c_handles w2 (cs_curl s) = Some o1 /\ (c_answers w1 = [] -> fst a = true)).
  { subst m. destruct (hs_key (cs_hs s)) as [key|].
    - destruct (ask_spec w1) as (a & l & E & S). rewrite E. eexists a, _. split; [reflexivity|]. split; [constructor; try reflexivity; intros D; apply S, D|]. split; [exact H1|]. intros D; apply S, D.
    - exists (true, true), w1. split; [reflexivity|]. split; [apply near_refl|]. split; [exact H1|reflexivity]. }
  destruct Hm' as (a & w2 & E2 & N2 & H2 & S2). unfold cbind at 1. rewrite E2. pose proof (near_trans _ _ _ _ N1 N2) as N12.
  destruct (fst a) eqn:Ha; cbn [negb].
  2:{ unfold cret. exists false, w2. split; [reflexivity|]. pose proof N12 as [A1 A2 A3 A4 A5 A6 A7]. apply mkAsked; [exact A1|exists o1; split; assumption|exact A2|exact A3|rewrite A4; lia| |exact A7].
      exists 0%nat, o1, 0%nat. cbn. split; [exact A6|]. split; [lia|]. split; [lia|]. split; [lia|]. intros D. apply (nr_silent _ _ _ N1), S2 in D. discriminate. }
  unfold cbind at 1. unfold cbind at 1, c_set_ctx at 1. cbn [c_handles c_next c_mem c_calls c_ctx c_answers c_log].
  set (w3 := mkCW _ _ _ _ _ _ _).
  destruct (setopt_spec (cs_curl s) O_WRITEDATA (VCtx (S (c_calls w2))) w3 o1 H2) as (b & w4 & o4 & E4 & N4 & H4 & K4 & Kt4 & Kf4 & Ks4).
  assert (F4 : five (cs_no s) o4) by (apply (five_keep _ o1 _ F1); intros; now apply K4).
  unfold cbind at 1. rewrite E4. pose proof N12 as [A1 A2 A3 A4 A5 A6 A7]. destruct N4 as [B1 B2 B3 B4 B5 B6 B7].
  destruct b.
  - assert (Hm4 : c_mem w4 (cs_no s) = true) by (rewrite B3; cbn; rewrite A3; exact Hm).
    assert (Hd4 : o4 O_WRITEDATA = Some (VCtx (c_calls w4))) by (rewrite B4; apply Kt4; reflexivity).
    assert (Hc4 : c_ctx w4 = Some (c_calls w4, cs_no s)) by (rewrite B5, B4; reflexivity).
    destruct (retried_spec s id o4 CONNECT_TRIES w4 H4 F4 Hm4 Hd4 Hc4) as (b & w5 & n & E5 & L5 & [C1 C2 C3 C4 C5 C6 C7] & S5).
    unfold cbind at 1. rewrite E5. unfold cbind, c_set_ctx, cret. eexists b, _. split; [reflexivity|].
    constructor; cbn [c_handles c_next c_mem c_calls c_ctx c_answers c_log].
    + intros g Hg. rewrite C1, B1 by exact Hg. cbn. now apply A1.
    + exists o4. rewrite C1. auto.
    + rewrite C2, B2. exact A2.
    + rewrite C3, B3. exact A3.
    + rewrite C4, B4. cbn. lia.
    + exists n, o4, (c_calls w4). split; [rewrite C6, B6; cbn; now rewrite A6|]. split; [exact L5|]. split; [rewrite C4; lia|]. split.
      * intros _. split; [rewrite B4; cbn; lia|]. split; [exact F4|]. split; [rewrite K4 by discriminate; apply Kt; reflexivity|exact Hd4].
      * intros D. apply S5; [apply B7; exact (A7 D)|unfold CONNECT_TRIES; lia].
    + intros D. apply C7, B7. exact (A7 D).
  - unfold cbind, c_set_ctx, cret. eexists false, _. split; [reflexivity|].
    constructor; cbn [c_handles c_next c_mem c_calls c_ctx c_answers c_log].
    + intros g Hg. rewrite B1 by exact Hg. cbn. now apply A1.
    + exists o4. auto.
    + rewrite B2. exact A2.
    + rewrite B3. exact A3.
    + rewrite B4. cbn. lia.
    + exists 0%nat, o4, 0%nat. cbn. split; [rewrite B6; exact A6|]. split; [lia|]. split; [lia|]. split; [lia|]. intros D. specialize (Ks4 (A7 D)). discriminate.
    + intros D. apply B7. exact (A7 D).
Qed.

(** Making a store *)
Record made (i : nat) (hs : hstore) (r : option cstore) (w w' : cworld) : Prop := mkMade {
  md_handles : forall g, (g < c_next w)%nat -> c_handles w' g = c_handles w g;
  md_next : (c_next w <= c_next w')%nat; md_mem : forall j, j <> i -> c_mem w' j = c_mem w j; md_calls : c_calls w' = c_calls w; md_log : c_log w' = c_log w;
  md_store : forall s, r = Some s -> cs_no s = i /\ cs_hs s = hs /\ cs_curl s = c_next w /\ c_next w' = S (c_next w) /\ c_mem w' i = true /\
    exists o, c_handles w' (cs_curl s) = Some o /\ five i o;
  md_silent : c_answers w = [] -> c_answers w' = [] /\ r <> None }.

Lemma new_spec i hs w : exists r w', http_new_o i hs w = Some (r, w') /\ made i hs r w w'.
Proof.
  unfold http_new_o. unfold cbind at 1, c_set_mem at 1. set (w0 := mkCW _ _ _ _ _ _ _). unfold cbind at 1, curl_easy_init. unfold cbind at 1.
  destruct (ask_spec w0) as (a & l & E & S). rewrite E. destruct (fst a) eqn:Ha; cbn [negb].
  2:{ unfold cret at 1. unfold cbind, c_set_mem, cret. eexists None, _. split; [reflexivity|]. apply mkMade; cbn; [reflexivity|lia| |reflexivity|reflexivity|discriminate|].
      - intros j Hj. rewrite !upd_other by exact Hj. reflexivity.
      - intros D. exfalso. destruct (S D). congruence. }
  cbn [c_handles c_next c_mem c_calls c_ctx c_answers c_log w0]. set (w1 := mkCW _ _ _ _ _ _ _).
  assert (H1 : c_handles w1 (c_next w) = Some (fun _ => None)) by apply upd_same.
  destruct (options_spec i (c_next w) (new_options i) w1 _ H1) as (b & w2 & o & E2 & [A1 A2 A3 A4 A5 A6 A7] & H2 & He & Y & Ys).
  { now left. } { repeat constructor; cbn; intuition discriminate. } { intros v Hv. cbn in Hv. intuition congruence. }
  unfold cbind at 1. rewrite E2.
  assert (X : exists a w3, (if b then c_ask else cret (false, true)) w2 = Some (a, w3) /\ (fst a = true -> b = true) /\ near (c_next w) w2 w3 /\ c_handles w3 (c_next w) = Some o /\
     (c_answers w2 = [] -> b = true -> fst a = true)).
  { destruct b.
    - destruct (ask_spec w2) as (a' & l' & E' & S'). rewrite E'. eexists a', _. split; [reflexivity|]. split; [reflexivity|]. split; [constructor; try reflexivity; intros D; apply S', D|].
      split; [exact H2|]. intros D _. apply S', D.
    - exists (false, true), w2. split; [reflexivity|]. split; [discriminate|]. split; [apply near_refl|]. split; [exact H2|discriminate]. }
  destruct X as (a' & w3 & E3 & Hab & [B1 B2 B3 B4 B5 B6 B7] & H3 & S3). unfold cbind at 1. rewrite E3.
  assert (Hold : forall g, (g < c_next w)%nat -> c_handles w3 g = c_handles w g).
  { intros g Hg. rewrite B1, A1 by lia. cbn. rewrite upd_other by lia. reflexivity. }
  assert (Hm3 : c_mem w3 = upd (c_mem w) i true) by (rewrite B3, A3; reflexivity).
  destruct (fst a') eqn:Ha'.
  - unfold cret. eexists _, w3. split; [reflexivity|]. apply mkMade; [exact Hold| | | | | |].
    + rewrite B2, A2. cbn. lia.
    + intros j Hj. rewrite Hm3. now apply upd_other.
    + rewrite B4, A4. reflexivity.
    + rewrite B6, A6. reflexivity.
    + intros s [= <-]. cbn. rewrite Hm3, upd_same, B2, A2. repeat split; auto. exists o. split; [exact H3|]. apply five_of. intros x v Hx. apply (Y (Hab eq_refl)). exact Hx.
    + intros D. split; [|discriminate]. apply B7, A7. cbn. apply S, D.
  - unfold cbind at 1, curl_easy_cleanup. unfold cbind at 1, c_get_handle. rewrite H3. unfold cbind at 1.
    assert (G : errbuf_ok w3 o = true). { unfold errbuf_ok. destruct He as [-> | ->]; [reflexivity|]. rewrite Hm3. apply upd_same. }
    rewrite G. unfold cbind, c_set_handle, c_set_mem, cret. cbn [c_handles c_next c_mem c_calls c_ctx c_answers c_log].
    eexists None, _. split; [reflexivity|]. constructor; cbn [c_handles c_next c_mem c_calls c_ctx c_answers c_log].
    + intros g Hg. rewrite upd_other by lia. now apply Hold.
    + rewrite B2, A2. cbn. lia.
    + intros j Hj. rewrite Hm3, !upd_other by exact Hj. reflexivity.
    + rewrite B4, A4. reflexivity.
    + rewrite B6, A6. reflexivity.
    + discriminate.
    + intros D. exfalso. assert (D1 : c_answers w1 = []) by (cbn; apply S, D). specialize (S3 (A7 D1) (Ys D1)). congruence.
Qed.

(** Freeing one *)
Lemma free_spec s w o : c_handles w (cs_curl s) = Some o -> five (cs_no s) o -> c_mem w (cs_no s) = true ->
  http_free_o s w = Some (tt, mkCW (upd (c_handles w) (cs_curl s) None) (c_next w) (upd (c_mem w) (cs_no s) false) (c_calls w) (c_ctx w) (c_answers w) (c_log w)).
Proof.
  intros H F Hm. unfold http_free_o, cbind at 1, curl_easy_cleanup. unfold cbind at 1, c_get_handle. rewrite H. unfold cbind at 1, errbuf_ok. rewrite (fv_err _ _ F), Hm. reflexivity.
Qed.

Lemma nth_app_last (st : stores) (r : option cstore) i s : nth i (st ++ [r]) None = Some s -> nth i st None = Some s \/ (i = length st /\ r = Some s).
Proof.
  intros H. destruct (Nat.lt_ge_cases i (length st)) as [L|L]; [rewrite app_nth1 in H by exact L; now left|].
  rewrite app_nth2 in H by exact L. destruct (i - length st)%nat as [|[|k]] eqn:D; cbn in H; [right; split; [lia|exact H]|discriminate|discriminate].
Qed.
Lemma nth_some_lt (st : stores) i s : nth i st None = Some s -> (i < length st)%nat.
Proof. intros H. destruct (Nat.lt_ge_cases i (length st)) as [L|L]; [exact L|]. rewrite nth_overflow in H by exact L. discriminate. Qed.
Lemma nth_drop : forall (st : stores) i j, nth j (drop_store i st) None = if Nat.eqb j i then None else nth j st None.
Proof.
  induction st as [|x st IH]; intros i j.
  - destruct i, j; cbn [drop_store nth]; match goal with |- context [Nat.eqb ?a ?b] => destruct (Nat.eqb a b) end; reflexivity.
  - destruct i, j; cbn; try reflexivity. apply IH.
Qed.
Lemma length_drop : forall (st : stores) i, length (drop_store i st) = length st.
Proof. induction st as [|x st IH]; intros [|i]; cbn; [reflexivity|reflexivity|reflexivity|now rewrite IH]. Qed.
Lemma n_call_app c a b : n_call c (a ++ b) = (n_call c a + n_call c b)%nat.
Proof. induction a as [|x a IH]; cbn; [reflexivity|]. destruct (Nat.eqb (x_call x) c); lia. Qed.
Lemma n_call_repeat c x n : (n_call c (repeat x n) <= n)%nat /\ (x_call x <> c -> n_call c (repeat x n) = 0%nat).
Proof. induction n as [|n [IH1 IH2]]; cbn; [lia|]. destruct (Nat.eqb_spec (x_call x) c); split; try lia; tauto. Qed.
Lemma news_app a b : news (a ++ b) = news a ++ news b.
Proof. induction a as [|[hs|i id|i] a IH]; cbn; [reflexivity|now rewrite IH|exact IH|exact IH]. Qed.

(** One transfer after another: the shape of the log when all calls succeed is kept along *)
Lemma run_inv ops : forall rest done st w, ops = done ++ rest -> length st = length (news done) -> inv ops st w ->
  exists st' w', run_ops rest st w = Some (st', w') /\ inv ops st' w' /\
    (c_answers w = [] -> forall alive, length alive = length st -> (forall i, nth i alive false = match nth i st None with Some _ => true | None => false end) ->
       map (fun x => (x_store x, x_id x)) (rev (c_log w')) = map (fun x => (x_store x, x_id x)) (rev (c_log w)) ++ requests rest alive).
Proof.
  induction rest as [|op rest IH]; intros done st w Hops Hlen I; cbn [run_ops].
  { exists st, w. split; [reflexivity|]. split; [exact I|]. intros _ alive _ _. cbn. now rewrite app_nil_r. }
  assert (Hops' : ops = (done ++ [op]) ++ rest) by (rewrite <- app_assoc; exact Hops).
  destruct op as [hs|i id|i].
  - destruct (new_spec (length st) hs w) as (r & w1 & E & M). unfold cbind. rewrite E.
    assert (I1 : inv ops (st ++ [r]) w1).
    { destruct M as [M1 M2 M3 M4 M5 M6 M7]. destruct I as [J1 J2 J3 J4 J5]. constructor.
      - intros j s Hj. apply nth_app_last in Hj as [Hj|[-> ->]].
        + pose proof (nth_some_lt _ _ _ Hj). destruct (J1 j s Hj) as (P1 & P2 & P3 & P4 & o & P5 & P6). split; [exact P1|]. split; [rewrite M3 by lia; exact P2|]. split; [lia|].
          split; [exact P4|]. exists o. split; [rewrite M1 by exact P3; exact P5|exact P6].
        + destruct (M6 s eq_refl) as (P1 & P2 & P3 & P4 & P5 & o & P6 & P7). split; [exact P1|]. split; [exact P5|]. split; [lia|]. split; [|exists o; auto].
          rewrite Hops, news_app, Hlen, nth_error_app2, Nat.sub_diag by lia. cbn. now rewrite P2.
      - intros j k s t Hj Hk Hst. apply nth_app_last in Hj as [Hj|[-> ->]]; apply nth_app_last in Hk as [Hk|[-> Hk]].
        + eapply J2; eassumption.
        + destruct (J1 _ _ Hj) as (_ & _ & P & _). destruct (M6 t Hk) as (_ & _ & P' & _). lia.
        + destruct (J1 _ _ Hk) as (_ & _ & P & _). destruct (M6 s eq_refl) as (_ & _ & P' & _). lia.
        + reflexivity.
      - now rewrite M5. - now rewrite M5, M4. - now rewrite M5. }
    destruct (IH (done ++ [CNew hs]) (st ++ [r]) w1 Hops') as (st' & w' & E' & I' & L'); [rewrite news_app, !app_length, Hlen; reflexivity|exact I1|].
    exists st', w'. split; [exact E'|]. split; [exact I'|]. intros D alive La Na. destruct (md_silent _ _ _ _ _ M D) as [D1 Hr].
    cbn [requests]. rewrite <- (md_log _ _ _ _ _ M). apply L'; [exact D1|rewrite !app_length, La; reflexivity|].
    intros i. destruct (Nat.lt_trichotomy i (length st)) as [Hi|[Hi|Hi]].
    + rewrite !app_nth1 by lia. apply Na.
    + rewrite !app_nth2 by lia. rewrite La, Hi, Nat.sub_diag. cbn. now destruct r.
    + rewrite !nth_overflow by (rewrite app_length; cbn; lia). reflexivity.
  - assert (Hlen' : length st = length (news (done ++ [CGet i id]))) by (rewrite news_app, app_length, Hlen; cbn; lia).
    destruct (nth i st None) as [s|] eqn:Hi.
    + destruct (iv_no _ _ _ I i s Hi) as (P1 & P2 & P3 & P4 & o & P5 & P6). rewrite <- P1 in P2, P6.
      destruct (get_spec s id w o P5 P6 P2) as (b & w1 & E & A). unfold cbind. rewrite E.
      assert (I1 : inv ops st w1).
      { destruct A as [A1 A2 A3 A4 A5 (n & o' & c & B1 & B2 & B3 & B4 & B5) A7]. destruct I as [J1 J2 J3 J4 J5]. constructor.
        - intros j t Hj. destruct (J1 j t Hj) as (Q1 & Q2 & Q3 & Q4 & o2 & Q5 & Q6). split; [exact Q1|]. split; [now rewrite A4|]. split; [now rewrite A3|]. split; [exact Q4|].
          destruct (Nat.eq_dec (cs_curl t) (cs_curl s)) as [Z|Z].
          + assert (Q : j = i) by exact (J2 j i t s Hj Hi Z). assert (T : t = s) by congruence. rewrite T, Q, <- P1. exact A2.
          + exists o2. split; [rewrite A1 by exact Z; exact Q5|exact Q6].
        - exact J2.
        - rewrite B1. apply Forall_app. split; [|exact J3]. destruct n as [|n]; [constructor|]. destruct (B4 ltac:(lia)) as (C1 & C2 & C3 & C4).
          apply Forall_forall. intros x Hx. apply repeat_spec in Hx. subst x. constructor; cbn; try (apply C2 || exact C4).
          + rewrite Hops, P1. apply in_or_app. right. now left.
          + exists (cs_hs s), (chunk_url (cs_hs s) id). rewrite P1. split; [exact P4|]. split; [exact C3|]. intros L B. apply chunk_url_layout; auto.
        - rewrite B1. apply Forall_app. split.
          + apply Forall_forall. intros x Hx. apply repeat_spec in Hx. subst x. exact B3.
          + eapply Forall_impl; [|exact J4]. cbn. intros; lia.
        - intros k. rewrite B1, n_call_app. set (x := mkTransfer _ _ _ _). destruct (n_call_repeat k x n) as [R1 R2].
          destruct (Nat.eq_dec (x_call x) k) as [Z|Z]; [|rewrite R2 by exact Z; apply J5].
          destruct n as [|n]; [cbn; apply J5|]. destruct (B4 ltac:(lia)) as (C1 & _). rewrite (n_call_new k (c_log w)); [lia|].
          eapply Forall_impl; [|exact J4]. cbn. intros y Hy. cbn in Z. lia. }
      destruct (IH (done ++ [CGet i id]) st w1 Hops' Hlen' I1) as (st' & w' & E' & I' & L'). exists st', w'. split; [exact E'|]. split; [exact I'|].
      intros D alive La Na. cbn [requests]. rewrite Na, Hi. rewrite (L' (ak_silent _ _ _ _ A D) alive La Na).
      destruct (ak_log _ _ _ _ A) as (n & o' & c & B1 & _ & _ & _ & B5). rewrite B1, (B5 D). cbn [repeat]. rewrite rev_app_distr, map_app, <- app_assoc. cbn. now rewrite P1.
    + destruct (IH (done ++ [CGet i id]) st w Hops' Hlen' I) as (st' & w' & E' & I' & L'). exists st', w'. split; [exact E'|]. split; [exact I'|].
      intros D alive La Na. cbn [requests]. rewrite Na, Hi. apply L'; assumption.
  - assert (Hlen' : length st = length (news (done ++ [CFree i]))) by (rewrite news_app, app_length, Hlen; cbn; lia).
    assert (Z : forall alive, length alive = length st -> (forall j, nth j alive false = match nth j st None with Some _ => true | None => false end) ->
              forall st2, length st2 = length st -> (forall j, nth j st2 None = if Nat.eqb j i then None else nth j st None) ->
              length (map (fun j => nth j alive false && negb (Nat.eqb j i)) (seq 0 (length alive))) = length st2 /\
              (forall j, nth j (map (fun j => nth j alive false && negb (Nat.eqb j i)) (seq 0 (length alive))) false = match nth j st2 None with Some _ => true | None => false end)).
    { intros alive La Na st2 L2 N2. split; [rewrite map_length, seq_length; lia|]. intros j. rewrite N2.
      destruct (Nat.lt_ge_cases j (length alive)) as [Hj|Hj].
      - rewrite (nth_indep _ false (nth 0 alive false && negb (Nat.eqb 0 i))) by (now rewrite map_length, seq_length).
        rewrite (map_nth (fun j => nth j alive false && negb (Nat.eqb j i)) (seq 0 (length alive)) 0%nat j), seq_nth by exact Hj. cbn. rewrite Na.
        destruct (Nat.eqb j i); cbn; [apply andb_false_r|apply andb_true_r].
      - rewrite nth_overflow by (now rewrite map_length, seq_length). destruct (Nat.eqb j i); [reflexivity|]. rewrite nth_overflow by lia. reflexivity. }
    destruct (nth i st None) as [s|] eqn:Hi.
    + destruct (iv_no _ _ _ I i s Hi) as (P1 & P2 & P3 & P4 & o & P5 & P6). pose proof P2 as P2'. pose proof P6 as P6'. rewrite <- P1 in P2', P6'.
      unfold cbind. rewrite (free_spec s w o P5 P6' P2'). set (w1 := mkCW _ _ _ _ _ _ _).
      assert (I1 : inv ops (drop_store i st) w1).
      { destruct I as [J1 J2 J3 J4 J5]. constructor; try assumption.
        - intros j t Hj. rewrite nth_drop in Hj. destruct (Nat.eqb_spec j i) as [|Hne]; [discriminate|]. destruct (J1 j t Hj) as (Q1 & Q2 & Q3 & Q4 & o2 & Q5 & Q6).
          split; [exact Q1|]. split; [cbn; rewrite upd_other by congruence; exact Q2|]. split; [exact Q3|]. split; [exact Q4|]. exists o2. split; [|exact Q6].
          cbn. rewrite upd_other; [exact Q5|]. intros X. apply Hne. eapply J2; eassumption.
        - intros j k s1 s2 Hj Hk. rewrite nth_drop in Hj, Hk. destruct (Nat.eqb j i); [discriminate|]. destruct (Nat.eqb k i); [discriminate|]. now apply J2. }
      destruct (IH (done ++ [CFree i]) (drop_store i st) w1 Hops') as (st' & w' & E' & I' & L'); [now rewrite length_drop|exact I1|]. exists st', w'. split; [exact E'|]. split; [exact I'|].
      intros D alive La Na. cbn [requests]. destruct (Z alive La Na (drop_store i st) (length_drop _ _) (nth_drop _ _)) as [Z1 Z2]. exact (L' D _ Z1 Z2).
    + destruct (IH (done ++ [CFree i]) st w Hops' Hlen' I) as (st' & w' & E' & I' & L'). exists st', w'. split; [exact E'|]. split; [exact I'|].
      intros D alive La Na. cbn [requests]. destruct (Z alive La Na st eq_refl) as [Z1 Z2].
      { intros j. destruct (Nat.eqb_spec j i); [now subst|reflexivity]. }
      exact (L' D _ Z1 Z2).
Qed.

Lemma inv_fresh ops answers : inv ops [] (fresh answers).
Proof. apply mkInv; [intros [|i] s H; discriminate H|intros [|i] j s t H; discriminate H|constructor|constructor|intros c; cbn; apply Nat.le_0_l]. Qed.

Lemma transfers_proper ops answers : exists st w, run_ops ops [] (fresh answers) = Some (st, w) /\ Forall (proper ops) (c_log w) /\ forall c, (n_call c (c_log w) <= 10)%nat.
Proof.
  destruct (run_inv ops ops [] [] (fresh answers) eq_refl eq_refl (inv_fresh ops answers)) as (st & w & E & I & _).
  exists st, w. split; [exact E|]. split; [exact (iv_log _ _ _ I)|exact (iv_tries _ _ _ I)].
Qed.
Lemma transfers_all ops : exists st w, run_ops ops [] (fresh []) = Some (st, w) /\ map (fun x => (x_store x, x_id x)) (rev (c_log w)) = requests ops [].
Proof.
  destruct (run_inv ops ops [] [] (fresh []) eq_refl eq_refl (inv_fresh ops [])) as (st & w & E & I & L).
  exists st, w. split; [exact E|]. rewrite (L eq_refl []); [reflexivity|reflexivity|]. intros [|i]; reflexivity.
Qed.
