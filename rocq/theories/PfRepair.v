(** Resumed updates with a damaged image (C94). *)
From Verif Require Import Base Lib Utils Chunker Caibx MainProg SpecBasic SpecEnv SpecChunker SpecCaibx SpecHttp SpecMain SpecRun SpecAvail SpecProgress SpecDelta SpecSupply SpecResume SpecUpdate SpecMend
  PfCaibx PfCaibx2 PfChunker PfChunkProps PfAvail PfDelta PfSupply PfStart PfSync PfTail PfUpdate PfMend.
Local Open Scope N_scope.

Lemma offered_end_to_end E argv w pieces kh ino p n tino : sane E argv w -> described E argv w pieces -> pieces <> [] -> (forall P, In P pieces -> 0 < blen P <= BUF_SIZE) ->
  is_csn argv = true -> (4 <= length argv)%nat -> e_getenv E (bs "CSN_KCAPI_DRIVER") = None -> w_kcapi w = false -> e_http_ok E = true ->
  e_open E (cmd_index argv) = Some ino -> valid_index (w_files w ino) p n -> e_kind E ino <> KOther ->
  e_open_rw E (cmd_target argv) = Some tino -> has_room E w tino (blen (concat pieces)) -> begun_with (w_files w tino) (firstn kh pieces) ->
  Forall (openable E w (cmd_target argv) p) (cmd_stores argv) ->
  (forall P, In P (skipn kh pieces) -> exists arg, In arg (cmd_stores argv) /\ offers E w (cmd_target argv) p (skipn kh pieces) arg P) ->
  w_alloc w = [] -> error_free (w_io w) -> (start_cost E argv w + enough_at (request_cost E argv w) (length pieces) (length (cmd_stores argv)) <= transfers (w_io w))%nat ->
  fst (main E argv w) = Ok 0 \/ exists tr, run_trace w (snd (main E argv w)) tr /\ false_answer E pieces tr.
Proof.
  intros HS HD Hne Hl Hc H4 Hg Hk Hh Ho Hv Hkind Hrw Hroom Hbeg Hu Hall Ha He Ht.
  assert (Hn : 0 < n). { destruct (HD _ _ _ Ho Hv) as (L & _). destruct pieces; [congruence|]. cbn [length] in L. lia. }
  destruct (init_openable E argv w ino p n tino HS Hc H4 Hg) as (su & w1 & Hi & Hk1 & Ht1); auto; [split; [apply HS|auto]|lia|].
  assert (Hl2 : forall P, In P (skipn kh pieces) -> 0 < blen P <= BUF_SIZE) by (intros P HP; apply Hl; rewrite <- (firstn_skipn kh pieces); apply in_app_iff; now right).
  assert (Hloc : forall a path ip, In a (cmd_stores argv) -> classify_arg (cmd_target argv) a = ArgLocal path ip -> ip = None \/ (exists id, seeded E w (cmd_target argv) p a id) \/ weak E argv w p a).
  { intros a path ip Hi2 X. rewrite Forall_forall in Hu. destruct (Hu a Hi2) as [[[Y|(Y & _)]|path' ino' Y|path' ip' id Y1 Y2]|Y]; [congruence|congruence|left; congruence|right; eauto|right; now right]. }
  destruct (supplied_run_from E argv w pieces True (request_cost E argv w) kh su w1 HS HD Hl He Ha (or_introl (conj Hg Hk))) as [X|(_ & X)].
  - intros ino' X. assert (ino' = tino) as -> by congruence. exact Hroom.
  - unfold request_cost. lia.
  - intros ino' X. assert (ino' = tino) as -> by congruence. exact Hbeg.
  - eapply offer_stands; eauto.
  - exact Hi.
  - auto.
  - exact X.
  - specialize (X Logic.I). lia.
Qed.

Section Repair.
Variables (E : env) (argv : list bytes) (w : world) (flags : N) (p : params) (D : N) (old bad : bytes) (arg path ip : bytes) (ino jino : nat).
Hypotheses (HS : sane E argv w) (Hflags : known_flags flags) (Hp : good_params p) (HD : disc_of p D) (Hmax : p_max p <= BUF_SIZE)
  (Hc : classify_arg (cmd_target argv) arg = ArgLocal path (Some ip)) (Ho : e_open E path = Some ino) (Hbad : w_files w ino = bad) (Hk : e_kind E ino <> KOther)
  (Hoi : e_open E ip = Some jino) (Hold : w_files w jino = casync_index E flags p D old) (Hki : e_kind E jino <> KOther)
  (Hsome : old <> []) (Hlen : blen old <= blen bad) (Hlarge : 5 * p_avg p <= 6 * blen bad) (Hlim : blen bad < 2 ^ 60).
Lemma old_limit : blen old <= OFF_LIMIT.
Proof. unfold OFF_LIMIT. change (2 ^ 60) with 1152921504606846976 in Hlim. lia. Qed.
Lemma bad_mendable : mendable E w (cmd_target argv) p arg path ip ino jino (N.of_nat (length (chunks p D old))).
Proof.
  pose proof (index_is_valid E argv w flags p D old jino) as V. pose proof (index_describes E argv w flags p D old jino) as Hd.
  specialize (V HS Hflags Hp Hmax Hold old_limit). specialize (Hd HS Hmax Hold old_limit). set (f := w_files w jino) in *. set (l := chunks p D old) in *.
  assert (Cn : concat l = old) by apply chunks_concat.
  assert (Ent : forall i, (i < length l)%nat -> exists c, nth_error l i = Some c /\ 0 < blen c <= BUF_SIZE /\ ent_end f i = ent_start f i + blen c).
  { intros i Hi. destruct (nth_error l i) as [c|] eqn:Ec; [|apply nth_error_None in Ec; lia]. exists c. split; [reflexivity|]. split; [|apply (proj2 Hd i c Ec)]. apply (piece_size p D old Hmax old_limit). eapply nth_error_In; eauto. }
  assert (Hpos : 0 < p_avg p) by (destruct V as (_ & _ & _ & _ & _ & _ & _ & V1 & V2 & _); lia).
  split; auto.
  - exists p. auto.
  - intros i Hi. rewrite Nat2N.id in Hi. destruct (Ent i Hi) as (c & _ & X & Y). unfold ent_size. fold f. rewrite Y. lia.
  - destruct l as [|c l'] eqn:El; [|cbn [length]; lia]. elim Hsome. now rewrite <- Cn.
  - intros i Hi. rewrite Nat2N.id in Hi. destruct (Ent i Hi) as (c & X1 & X2 & X3). fold f. rewrite X3, Hbad. etransitivity; [|exact Hlen].
    pose proof (start_concat E f (length l) l Hd i ltac:(lia)) as S1.
    assert (S2 : ent_start f i = blen (concat (firstn i l))) by (unfold blen; rewrite <- S1; symmetry; apply N2Nat.id). destruct (nth_error_split l i X1) as (l1 & l2 & X4 & X5). assert (F1 : firstn i l = l1) by (rewrite X4, <- X5; apply firstn_exact).
    rewrite S2, F1, <- Cn, X4, concat_app. cbn [concat]. unfold blen. rewrite !app_length. lia.
  - rewrite Hbad. exact Hlarge.
  - rewrite Hbad. exact Hlim.
Qed.
Lemma bad_salvaged c : In c (chunks p D old) -> In c (chunks p D bad) -> salvaged E w (cmd_target argv) p arg (e_H E c).
Proof.
  intros H1 H2. apply In_nth_error in H1 as (i & Hi). pose proof (proj2 (index_describes E argv w flags p D old jino HS Hmax Hold old_limit) i c Hi) as (_ & _ & Eid).
  exists path, ip, ino, jino, (N.of_nat (length (chunks p D old))), D, i, c. split; [apply bad_mendable|]. split; [exact HD|]. rewrite Nat2N.id. split; [apply nth_error_Some; congruence|]. split; [exact Eid|]. split; [now rewrite Hbad|reflexivity].
Qed.
End Repair.

Lemma offered_succeeds E argv w pieces k p tino : offered_run E argv w pieces k p tino ->
  fst (main E argv w) = Ok 0 \/ exists tr, run_trace w (snd (main E argv w)) tr /\ false_answer E pieces tr.
Proof. intros [U1 U2 U3 U4 U5 U6 U7 U8 U9 (ino & n & U10 & U11 & U12) U13 U14 U15 U16 U17 U18 U19 U20]. eapply offered_end_to_end; eauto. Qed.

Lemma repair_offered E argv w flags p D old bad new k tino : repair_run E argv w flags p D old bad new k tino -> offered_run E argv w (chunks p D new) k p tino.
Proof.
  intros [U1 U2 U3 U4 U5 U6 U7 U8 U9 U10 (iino & U11 & U12 & U13) U14 U15 U16 U17 U18 U19 (arg & path & ip & ino & jino & V1 & V2 & V3 & V4 & V5 & V6 & V7 & V8) Us U20 U21 U22 (url & U23 & U24 & U25) U26 U27 U28].
  set (pieces := chunks p D new) in *.
  pose proof (index_is_valid E argv w flags p D new iino U1 U7 U8 U10 U12 U14) as V. pose proof (index_described E argv w flags p D new iino) as Hd. fold pieces in V, Hd.
  specialize (Hd U1 U7 U8 U10 U11 U12 U14).
  assert (Cn : concat pieces = new) by apply chunks_concat.
  assert (Hpn : pieces <> []) by (intros X; rewrite X in Cn; apply U15; now symmetry).
  apply mkOffered; try assumption.
  - exact (piece_size p D new U10 U14).
  - eauto.
  - now rewrite Cn.
  - intros P HP.
    assert (Dec : (In P (chunks p D old) /\ In P (chunks p D bad)) \/ ~ (In P (chunks p D old) /\ In P (chunks p D bad))).
    { destruct (in_dec (list_eq_dec N.eq_dec) P (chunks p D old)); destruct (in_dec (list_eq_dec N.eq_dec) P (chunks p D bad)); tauto. }
    destruct Dec as [(D1 & D2)|Hout].
    + exists arg. split; [exact V1|]. right. eapply bad_salvaged; eauto.
    + exists url. split; [exact U23|]. left. apply sup_http; [exact U24|]. intros base key Hden. split.
      * destruct (U25 base key P Hden HP) as [X|(X & _)]; [exact X|contradiction].
      * intros P' HP'. destruct (U25 base key P' Hden HP') as [X|(_ & X)]; auto.
Qed.

(** Success with the image, or a hash collision. *)
Lemma repair_works E argv w flags p D old bad new k tino : repair_run E argv w flags p D old bad new k tino ->
  let w' := snd (main E argv w) in exists tr, run_trace w w' tr /\
  ((fst (main E argv w) = Ok 0 /\ w_files w' tino = new ++ skipn (length new) (w_files w tino)) \/
   false_answer E (chunks p D new) tr \/
   collision E (chunks p D new) (fun y => (exists a l, end_piece y (slice a l (w_files w' tino))) \/ exists o d, In (TPut tino o d) tr /\ end_piece y d)).
Proof.
  intros HR. pose proof (repair_offered _ _ _ _ _ _ _ _ _ _ _ HR) as HO. pose proof (of_sane _ _ _ _ _ _ _ HO) as U1. pose proof (of_described _ _ _ _ _ _ _ HO) as Hd. pose proof (of_target _ _ _ _ _ _ _ HO) as U16.
  cbv zeta. set (pieces := chunks p D new) in *. assert (Cn : concat pieces = new) by apply chunks_concat.
  destruct (offered_succeeds E argv w pieces k p tino HO) as [R|(tr & T & F)].
  2: { exists tr. split; [exact T|]. right. left. exact F. }
  destruct (main E argv w) as [o w'] eqn:M. cbn [fst snd] in *. subst o.
  destruct (exact_target E argv w w' pieces U1 Hd M) as (iino' & tino' & q & n & X1 & X2 & X3 & X4).
  assert (tino' = tino) by congruence. subst tino'.
  destruct (always_image E argv w pieces tino U1 Hd U16) as (tr & T & _). rewrite M in T. cbn [snd] in T. exists tr. split; [exact T|].
  destruct X4 as [X4|[(x & y & A & B & C & H)|(tr' & T' & (x & y & A & B & C & H))]]; [left; rewrite Cn in X4; auto|right; right; exists x, y; repeat (split; [assumption|])..].
  - destruct H as [H|(i & _ & H)]; [left; exact H|right; left]. unfold ent_slice in H. eauto.
  - assert (tr' = tr) by (unfold run_trace in *; rewrite T in T'; now apply app_inv_tail in T'). subst tr'. destruct H as [H|H]; [left; exact H|right; right; exact H].
Qed.
