(** Updates from one image to another (C90). *)
From Verif Require Import Base Lib Utils Chunker Caibx MainProg SpecBasic SpecEnv SpecChunker SpecCaibx SpecHttp SpecMain SpecRun SpecAvail SpecDelta SpecSupply SpecUpdate
  PfCaibx PfCaibx2 PfChunker PfChunkProps PfDelta PfSupply PfStart PfSync PfTail.
Local Open Scope N_scope.

Lemma toc_length E : forall l off, length (toc E off l) = length l.
Proof. induction l as [|P l IH]; intros off; cbn [toc length]; [reflexivity|now rewrite IH]. Qed.
Lemma toc_ids E : hash_ok E -> forall l off, Forall (fun e => good_id (snd e)) (toc E off l).
Proof. intros H. induction l as [|P l IH]; intros off; cbn [toc]; constructor; [exact (H P)|apply IH]. Qed.
Lemma toc_split E : forall l1 off P l2, toc E off (l1 ++ P :: l2) = toc E off l1 ++ (off + blen (concat l1) + blen P, e_H E P) :: toc E (off + blen (concat l1) + blen P) l2.
Proof.
  assert (BA : forall a b, blen (a ++ b) = blen a + blen b) by (intros a b; unfold blen; rewrite app_length; lia).
  induction l1 as [|Q l1 IH]; intros off P l2; cbn [app concat toc]; [change (blen []) with 0; now rewrite N.add_0_r|]. rewrite IH, BA.
  replace (off + blen Q + blen (concat l1)) with (off + (blen Q + blen (concat l1))) by lia. reflexivity.
Qed.
Lemma blen_prefix (l1 : list bytes) P l2 : blen (concat (l1 ++ P :: l2)) = blen (concat l1) + blen P + blen (concat l2).
Proof. unfold blen. rewrite concat_app. cbn [concat]. rewrite !app_length. lia. Qed.
Lemma describes_toc E flags p pieces : hash_ok E -> blen (concat pieces) < 2 ^ 64 -> (forall P, In P pieces -> blen P < 2 ^ 32) ->
  describes E (index_file flags p (toc E 0 pieces)) (length pieces) pieces.
Proof.
  intros HE HL HP. split; [reflexivity|]. intros i P Hi. pose proof (nth_error_split _ _ Hi) as (l1 & l2 & -> & <-).
  assert (Hin : In P (l1 ++ P :: l2)) by (apply in_or_app; right; now left).
  pose proof (toc_ids E HE (l1 ++ P :: l2) 0) as G. rewrite blen_prefix in HL.
  assert (X : forall l1 Q l2', l1 ++ Q :: l2' = l1 ++ Q :: l2' -> Forall (fun e => good_id (snd e)) (toc E 0 (l1 ++ Q :: l2')) -> blen (concat l1) + blen Q < 2 ^ 64 ->
    ent_end (index_file flags p (toc E 0 (l1 ++ Q :: l2'))) (length l1) = blen (concat l1) + blen Q /\ ent_id (index_file flags p (toc E 0 (l1 ++ Q :: l2'))) (length l1) = e_H E Q).
  { clear. intros l1 Q l2 _ G L. rewrite toc_split in *. rewrite N.add_0_l in *. destruct (index_entry flags p _ _ _ G L) as (A & B). rewrite toc_length in A, B. auto. }
  destruct (X l1 P l2 eq_refl G ltac:(lia)) as (A & B). split; [|split; [now apply HP|exact B]].
  rewrite A. f_equal. destruct (Nat.eq_dec (length l1) 0) as [Z|Z].
  - apply length_zero_iff_nil in Z. subst l1. reflexivity.
  - destruct (exists_last (l := l1) ltac:(intros ->; apply Z; reflexivity)) as (l0 & Q & ->). rewrite <- app_assoc in G |- *. cbn [app] in G |- *.
    rewrite app_length. cbn [length]. rewrite Nat.add_1_r. cbn [ent_start].
    destruct (X l0 Q (P :: l2) eq_refl G) as (C & _).
    { rewrite concat_app in HL. cbn [concat] in HL. rewrite app_nil_r in HL. unfold blen in *. rewrite app_length in HL. lia. }
    rewrite C, concat_app. cbn [concat]. rewrite app_nil_r. unfold blen. rewrite app_length. lia.
Qed.

Section Update.
Variables (E : env) (argv : list bytes) (w : world) (flags : N) (p : params) (D : N) (old new lp path up : bytes) (iino tino oino k j : nat).
Hypotheses (HS : sane E argv w) (Hflags : known_flags flags) (Hp : good_params p) (HD : disc_of p D) (Hmax : p_max p <= BUF_SIZE)
  (Ho : e_open E (cmd_index argv) = Some iino) (Hi : w_files w iino = casync_index E flags p D new) (Hsize : blen new <= OFF_LIMIT).
Let pieces := chunks p D new.
Lemma piece_size P : In P pieces -> 0 < blen P <= BUF_SIZE.
Proof.
  intros Hin. pose proof (chunks_nonempty p D new) as Hne. rewrite Forall_forall in Hne. specialize (Hne P Hin).
  destruct (in_split _ _ Hin) as (l1 & l2 & X). destruct (chunks_sizes p D new l1 P l2 X) as (S1 & _).
  assert (48 <= BUF_SIZE) by (vm_compute; discriminate). split; [|lia]. unfold blen. destruct P; [congruence|cbn [length]; lia].
Qed.
Lemma index_len : N.of_nat (length pieces) < 2 ^ 58.
Proof.
  destruct (sa_files _ _ _ HS iino) as (_ & L). rewrite Hi in L. unfold casync_index, blen in L. rewrite index_file_length, toc_length in L by (apply toc_ids, HS).
  fold pieces in L. unfold OFF_LIMIT in L. change (2 ^ 58) with 288230376151711744. lia.
Qed.
Lemma index_is_valid : valid_index (w_files w iino) p (N.of_nat (length pieces)).
Proof.
  rewrite Hi. unfold casync_index. fold pieces. rewrite <- (toc_length E pieces 0). apply index_file_valid; auto; [apply toc_ids, HS|]. rewrite toc_length. apply index_len.
Qed.
Lemma index_describes : describes E (w_files w iino) (length pieces) pieces.
Proof.
  rewrite Hi. unfold casync_index. fold pieces. apply describes_toc; [apply HS|unfold pieces; rewrite chunks_concat; unfold OFF_LIMIT in Hsize; lia|].
  intros P HP. destruct (piece_size P HP) as (_ & X). assert (BUF_SIZE < 2 ^ 32) by (vm_compute; reflexivity). lia.
Qed.
Lemma index_described : described E argv w pieces.
Proof.
  intros ino q n X HV. assert (ino = iino) by congruence. subst ino. pose proof index_is_valid as V.
  assert (n = N.of_nat (length pieces)) by (destruct V as (V & _), HV as (HV & _); lia). subst n. rewrite Nat2N.id. apply index_describes.
Qed.

Hypotheses (Hcsn : is_csn argv = true) (H4 : (4 <= length argv)%nat) (Hg : e_getenv E (bs "CSN_KCAPI_DRIVER") = None) (Hkc : w_kcapi w = false) (Hh : e_http_ok E = true)
  (Hkind : e_kind E iino <> KOther) (Hne : new <> []) (Hrw : e_open_rw E (cmd_target argv) = Some tino) (Hroom : has_room E w tino (blen new))
  (Hu : Forall (usable E w (cmd_target argv) p) (cmd_stores argv))
  (Hlp : nth_error (cmd_stores argv) k = Some lp) (Hup : nth_error (cmd_stores argv) j = Some up) (Hkj : (k < j)%nat)
  (Hlc : classify_arg (cmd_target argv) lp = ArgLocal path None) (Hlo : e_open E path = Some oino) (Hold : w_files w oino = old)
  (Huc : classify_arg (cmd_target argv) up = ArgHttp up)
  (Hserver : forall base key c, store_denotes E w up base key -> In c (chunks p D new) ->
     has_chunk E base key c \/ In c (chunks p D old) /\ lacks_chunk E base key (e_H E c))
  (Ha : w_alloc w = []) (He : error_free (w_io w)) (Ht : (start_cost E argv w + enough (length (chunks p D new)) (length (cmd_stores argv)) <= transfers (w_io w))%nat).
Lemma old_seeded c : In c (chunks p D old) -> seeded E w (cmd_target argv) p lp (e_H E c).
Proof. intros Hc. apply (seed_scan E w (cmd_target argv) p lp path oino D c Hlc Hlo HD Hmax). now rewrite Hold. Qed.
Lemma update : let w' := snd (main E argv w) in exists tr, run_trace w w' tr /\
  ((fst (main E argv w) = Ok 0 /\ w_files w' tino = new ++ skipn (length new) (w_files w tino) /\
    forall id, In id (asked_of j tr) -> exists c, In c (chunks p D new) /\ ~ In c (chunks p D old) /\ id = e_H E c) \/
   false_answer E (chunks p D new) tr \/
   collision E (chunks p D new) (fun y => exists i, (i < length (chunks p D new))%nat /\ end_piece y (ent_slice (w_files w iino) i (w_files w' tino))) \/
   collision E (chunks p D new) (fun y => exists o d, In (TPut tino o d) tr /\ end_piece y d)).
Proof.
  cbv zeta. fold pieces. pose proof index_is_valid as V. pose proof index_described as Hd.
  assert (Cn : concat pieces = new) by apply chunks_concat.
  assert (Hpn : pieces <> []) by (intros X; rewrite X in Cn; apply Hne; now symmetry).
  destruct (supplied_end_to_end E argv w pieces iino p _ tino HS Hd Hpn piece_size Hcsn H4 Hg Hkc Hh Ho V Hkind Hrw) as [R|(tr & T & F)]; auto.
  { now rewrite Cn. }
  { intros P HP. destruct (in_dec (list_eq_dec N.eq_dec) P (chunks p D old)) as [Hin|Hout].
    - exists lp. split; [eapply nth_error_In; eauto|]. apply sup_local, old_seeded, Hin.
    - exists up. split; [eapply nth_error_In; eauto|]. apply sup_http; [exact Huc|]. intros base key Hden. split.
      + destruct (Hserver base key P Hden HP) as [X|(X & _)]; [exact X|contradiction].
      + intros P' HP'. destruct (Hserver base key P' Hden HP') as [X|(_ & X)]; auto. }
  2: { exists tr. split; [exact T|]. right. left. exact F. }
  destruct (main E argv w) as [o w'] eqn:M. cbn [fst snd] in *. subst o.
  destruct (exact_target E argv w w' pieces HS Hd M) as (iino' & tino' & q & n & X1 & X2 & X3 & X4).
  assert (iino' = iino) by congruence. assert (tino' = tino) by congruence. subst iino' tino'.
  assert (n = N.of_nat (length pieces)) by (destruct V as (V & _), X3 as (X3 & _); lia). subst n. rewrite Nat2N.id in X4.
  assert (HR : hash_reliable E w) by (left; auto). assert (Hal : ~ In false (w_alloc w)) by (rewrite Ha; intros []).
  destruct (always_image E argv w pieces tino HS Hd Hrw) as (tr & T & _). rewrite M in T. cbn [snd] in T. exists tr. split; [exact T|].
  destruct X4 as [X4|[X4|(tr' & T' & X4)]]; [left|right; right; left; exact X4|right; right; right].
  - split; [reflexivity|]. rewrite Cn in X4. split; [exact X4|]. intros id Hid.
    assert (T2 : run_trace w (snd (main E argv w)) tr) by (rewrite M; exact T).
    destruct (delta E argv w HS HR He Hal iino p _ Ho V k lp j tr Hlp T2) as (l & L1 & _ & L2).
    apply in_rev in Hid. rewrite L1 in Hid. apply in_map_iff in Hid as (i & Hi2 & Hin). rewrite Forall_forall in L2. destruct (L2 i Hin) as (L3 & L4).
    rewrite Nat2N.id in L3. destruct (nth_error pieces i) as [c|] eqn:Ec; [|apply nth_error_None in Ec; lia].
    destruct (proj2 index_describes i c Ec) as (_ & _ & Eid). exists c. split; [eapply nth_error_In; eauto|]. split; [|congruence].
    intros Hc. apply (L4 Hkj). rewrite Eid. now apply old_seeded.
  - assert (tr' = tr) by (unfold run_trace in *; rewrite T in T'; now apply app_inv_tail in T'). subst tr'. exact X4.
Qed.
End Update.

(** The index says where the target's parts are; two pieces with the same hash, or a chunk of the target or of what was
    written there that has the hash of another one. *)
Lemma update_works E argv w flags p D old new tino j : update_run E argv w flags p D old new tino j ->
  let w' := snd (main E argv w) in exists tr, run_trace w w' tr /\
  ((fst (main E argv w) = Ok 0 /\ w_files w' tino = new ++ skipn (length new) (w_files w tino) /\
    forall id, In id (asked_of j tr) -> exists c, In c (chunks p D new) /\ ~ In c (chunks p D old) /\ id = e_H E c) \/
   false_answer E (chunks p D new) tr \/
   collision E (chunks p D new) (fun y => (exists a l, end_piece y (slice a l (w_files w' tino))) \/ exists o d, In (TPut tino o d) tr /\ end_piece y d)).
Proof.
  intros [U1 U2 U3 U4 U5 U6 U7 U8 U9 U10 (iino & U11 & U12 & U13) U14 U15 U16 U17 U18 (k & arg & path & ino & U19 & U20 & U21 & U22 & U23) (url & U24 & U25 & U26) U27 U28 U29].
  destruct (update E argv w flags p D old new arg path url iino tino ino k j) as (tr & T & H); auto. exists tr. split; [exact T|].
  destruct H as [H|[H|[(x & y & A & B & C & H)|(x & y & A & B & C & H)]]]; [left; exact H|right; left; exact H|right; right; exists x, y; repeat (split; [assumption|])..].
  - destruct H as [H|(i & _ & H)]; [left; exact H|right; left]. unfold ent_slice in H. eauto.
  - destruct H as [H|H]; [left; exact H|right; right; exact H].
Qed.
