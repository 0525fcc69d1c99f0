(** The chunks of the end-to-end tests are chunks (C91). *)
From Verif Require Import Base Lib Discr Chunker Caibx MainProg SpecBasic SpecCaibx SpecChunker SpecMain SpecRun SpecAvail SpecProgress SpecDelta SpecSupply SpecUpdate SpecGen PfChunker PfChunkProps PfUpdate.
Local Open Scope N_scope.

Lemma disc_default : disc_of p_default d_default.
Proof. split; [vm_compute; reflexivity|discriminate]. Qed.
Lemma find_seq (f : nat -> bool) : forall n a k, (a <= k < a + n)%nat -> f k = true -> (forall i, (a <= i < k)%nat -> f i = false) -> find f (seq a n) = Some k.
Proof.
  induction n as [|n IH]; intros a k Hk Hf Hi; [lia|]. cbn [seq find]. destruct (Nat.eq_dec a k) as [->|Hne]; [now rewrite Hf|].
  rewrite (Hi a) by lia. apply IH; [lia|exact Hf|]. intros i Hx. apply Hi. lia.
Qed.
Lemma repeat_split n m : repeat (A := N) 0 (n + m) = repeat 0 n ++ repeat 0 m.
Proof. apply repeat_app. Qed.
Lemma last48_tail x t : length t = 48%nat -> last48 (x ++ t) = t.
Proof. intros L. unfold last48. rewrite app_length, L, Nat.add_sub, skipn_app, skipn_all, Nat.sub_diag. reflexivity. Qed.
Lemma zeros_window b n : (49 <= n)%nat -> last48 (b :: repeat 0 (n - 1)) = repeat 0 48.
Proof. intros H. replace (n - 1)%nat with ((n - 49) + 48)%nat by lia. rewrite repeat_split. apply (last48_tail (b :: repeat 0 (n - 49)) (repeat 0 48)). apply repeat_length. Qed.
Lemma make_small size b : 16384 <= size -> size <> 262144 -> make size b = b :: repeat 0 (N.to_nat size - 3) ++ [5; 139].
Proof.
  intros H Hne. unfold make, break_pattern. replace (size =? 262144) with false by lia. rewrite app_assoc, <- repeat_split. do 3 f_equal. lia.
Qed.
Lemma make_length size b : 16384 <= size -> blen (make size b) = size.
Proof.
  intros H. unfold blen. destruct (N.eq_dec size 262144) as [He|Hne].
  - unfold make. rewrite (proj2 (N.eqb_eq size 262144) He). cbn [length]. rewrite repeat_length. lia.
  - rewrite make_small by assumption. cbn [length]. rewrite app_length, repeat_length. cbn [length]. lia.
Qed.
Lemma firstn_make size b n : 16384 <= size -> (1 <= n)%nat -> (N.of_nat n < size) ->
  firstn n (make size b) = b :: repeat 0 (n - 1) \/ N.of_nat n = size - 1 /\ firstn n (make size b) = b :: repeat 0 (n - 2) ++ [5].
Proof.
  intros H H1 Hn. assert (F : forall m k, (k <= m)%nat -> firstn k (repeat (A := N) 0 m) = repeat 0 k).
  { intros m k Hk. replace m with (k + (m - k))%nat by lia. rewrite repeat_split, firstn_app, repeat_length, Nat.sub_diag. cbn [firstn]. rewrite app_nil_r. now rewrite firstn_all2 by (rewrite repeat_length; lia). }
  destruct n as [|n]; [lia|]. cbn [Nat.sub]. rewrite Nat.sub_0_r. destruct (N.eq_dec size 262144) as [He|Hne].
  - left. unfold make. rewrite (proj2 (N.eqb_eq size 262144) He). cbn [firstn]. rewrite F; [reflexivity|lia].
  - rewrite make_small by assumption. cbn [firstn]. destruct (Nat.leb_spec n (N.to_nat size - 3)) as [X|X].
    + left. rewrite firstn_app, F, repeat_length by exact X. replace (n - (N.to_nat size - 3))%nat with 0%nat by lia. cbn [firstn]. now rewrite app_nil_r.
    + right. split; [lia|]. assert (E1 : n = (N.to_nat size - 2)%nat) by lia. rewrite firstn_app, repeat_length. rewrite firstn_all2 by (rewrite repeat_length; lia).
      replace (n - (N.to_nat size - 3))%nat with 1%nat by lia. cbn [firstn]. do 3 f_equal. lia.
Qed.
Lemma make_cut size b : 16384 <= size <= 262144 -> cut_here p_default d_default (make size b) = true.
Proof.
  intros (H1 & H2). unfold cut_here. rewrite make_length by exact H1. cbn [p_max p_min p_default]. destruct (N.eq_dec size 262144) as [He|Hne]; [now rewrite (proj2 (N.leb_le 262144 size) ltac:(lia))|].
  apply orb_true_iff. right. apply andb_true_iff. split; [lia|]. unfold make. replace (size =? 262144) with false by lia.
  rewrite app_comm_cons, last48_tail by reflexivity. vm_compute. reflexivity.
Qed.
Lemma make_uncut size b n : 16384 <= size <= 262144 -> (1 <= n)%nat -> N.of_nat n < size -> cut_here p_default d_default (firstn n (make size b)) = false.
Proof.
  intros (H1 & H2) Hn Hs. assert (L : blen (firstn n (make size b)) = N.of_nat n).
  { unfold blen. rewrite firstn_length_le; [reflexivity|]. pose proof (make_length size b H1) as X. unfold blen in X. lia. }
  unfold cut_here. rewrite L. cbn [p_max p_min p_default]. replace (262144 <=? N.of_nat n) with false by lia. cbn [orb].
  destruct (N.leb_spec 16384 (N.of_nat n)) as [X|X]; [|reflexivity]. cbn [andb].
  destruct (firstn_make size b n H1 Hn Hs) as [->|(Y & ->)].
  - rewrite zeros_window by lia. vm_compute. reflexivity.
  - replace (n - 2)%nat with ((n - 49) + 47)%nat by lia. rewrite repeat_split, <- app_assoc, app_comm_cons, last48_tail by reflexivity. vm_compute. reflexivity.
Qed.
Lemma make_chunk size b : 16384 <= size <= 262144 -> chunks p_default d_default (make size b) = [make size b].
Proof.
  intros H. pose proof (make_length size b (proj1 H)) as L.
  assert (F : first_cut p_default d_default (make size b) = Some (length (make size b))).
  { unfold first_cut. unfold blen in L. apply find_seq; [lia| |].
    - rewrite firstn_all. now apply make_cut.
    - intros i Hi. apply make_uncut; [exact H|lia|lia]. }
  unfold chunks. destruct (make size b) as [|x t] eqn:Em; [unfold blen in L; cbn in L; lia|]. cbn [length chunks_n]. rewrite F. change (S (length t)) with (length (x :: t)).
  rewrite firstn_all, skipn_all. destruct (length t); reflexivity.
Qed.
Lemma made_boundary c : made c -> boundary_at_end p_default d_default c /\ chunks p_default d_default c = [c].
Proof.
  intros (size & b & Hs & Hb & ->). split; [|now apply make_chunk]. right. exists [], (make size b). split; [now apply make_chunk|]. split; [|now apply make_cut].
  pose proof (make_length size b (proj1 Hs)) as L. unfold blen in L. lia.
Qed.
Lemma made_chunks l rest : Forall made l -> chunks p_default d_default (concat l ++ rest) = l ++ chunks p_default d_default rest.
Proof.
  induction 1 as [|c l Hc _ IH]; [reflexivity|]. cbn [concat]. rewrite <- app_assoc. destruct (made_boundary c Hc) as (B & C). rewrite boundary_resync by exact B. rewrite C, IH. reflexivity.
Qed.
Lemma made_exactly l : Forall made l -> chunks p_default d_default (concat l) = l.
Proof. intros H. pose proof (made_chunks l [] H) as X. rewrite app_nil_r in X. rewrite X. apply app_nil_r. Qed.
(** csn_test.py:32-35: one byte followed by zeros never ends a chunk; the pattern always does. *)
Lemma windows : (forall b, b < 256 -> buzhash (b :: repeat 0 47) mod d_default <> d_default - 1) /\ (forall d, buzhash (last48 (d ++ break_pattern)) mod d_default = d_default - 1).
Proof.
  split.
  - assert (X : forallb (fun b => negb (buzhash (N.of_nat b :: repeat 0 47) mod d_default =? d_default - 1)) (seq 0 256) = true) by (vm_compute; reflexivity).
    rewrite forallb_forall in X. intros b Hb. specialize (X (N.to_nat b)). rewrite N2Nat.id in X. rewrite in_seq in X. specialize (X ltac:(lia)).
    destruct (N.eqb_spec (buzhash (b :: repeat 0 47) mod d_default) (d_default - 1)); [discriminate|assumption].
  - intros d. rewrite last48_tail by reflexivity. vm_compute. reflexivity.
Qed.

(** test_ab_regular (csn_test.py:393-424), for any two lists of such chunks and anything after the older ones. *)
Lemma tests_update E argv w flags A B rest tino j : Forall made A -> Forall made B -> update_run E argv w flags p_default d_default (concat A ++ rest) (concat B) tino j ->
  let w' := snd (main E argv w) in exists tr, run_trace w w' tr /\
  ((fst (main E argv w) = Ok 0 /\ w_files w' tino = concat B ++ skipn (length (concat B)) (w_files w tino) /\
    forall id, In id (asked_of j tr) -> exists c, In c B /\ ~ In c A /\ id = e_H E c) \/
   false_answer E B tr \/
   collision E B (fun y => (exists a l, end_piece y (slice a l (w_files w' tino))) \/ exists o d, In (TPut tino o d) tr /\ end_piece y d)).
Proof.
  intros HA HB U. destruct (update_works _ _ _ _ _ _ _ _ _ _ U) as (tr & T & H). rewrite (made_exactly B HB), (made_chunks A rest HA) in H. exists tr. split; [exact T|].
  destruct H as [(H1 & H2 & H3)|H]; [left|right; exact H]. split; [exact H1|]. split; [exact H2|]. intros id Hid. destruct (H3 id Hid) as (c & C1 & C2 & C3).
  exists c. split; [exact C1|]. split; [|exact C3]. intros X. apply C2, in_or_app. now left.
Qed.

Lemma caibx_toc E : forall l off, concat (map (fun x => match x with inl v => le64 v | inr d => d end) (caibx_table E off l)) = concat (map (fun e => le64 (fst e) ++ snd e) (toc E off l)).
Proof. induction l as [|c l IH]; intros off; [reflexivity|]. cbn [caibx_table toc map concat fst snd]. now rewrite IH, <- app_assoc. Qed.
Lemma make_caibx_index E l : Forall made l -> make_caibx E l = casync_index E 0x9000000000000000 p_default d_default (concat l) /\ known_flags 0x9000000000000000.
Proof.
  intros H. split; [|exists true, false, true; reflexivity]. unfold casync_index. rewrite (made_exactly l H). unfold make_caibx, caibx_words, index_file.
  rewrite !map_app, !concat_app, caibx_toc, toc_length. cbn [map concat p_min p_avg p_max p_default]. rewrite !app_nil_r, <- !app_assoc.
  replace (16 + (N.of_nat (length l) + 1) * 40) with (56 + 40 * N.of_nat (length l)) by lia. reflexivity.
Qed.
