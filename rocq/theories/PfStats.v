(** Proofs about Stats.v *)
From Verif Require Import Base Lib Stats Caibx Chain MainProg SpecRun SpecStats.
Local Open Scope N_scope.

Lemma slots_nth hint n : forall i, (i < length (slots_after hint n))%nat ->
  nth_error (slots_after hint n) i = Some (if N.of_nat i <? N.max 1 hint then Some 0 else None).
Proof.
  induction n as [|n IH]; intros i; cbn [slots_after].
  - unfold slots_new. rewrite repeat_length. intros H. rewrite List.nth_error_repeat by exact H.
    replace (N.of_nat i <? N.max 1 hint) with true; [reflexivity|]. symmetry. apply N.ltb_lt. lia.
  - unfold slots_append. destruct (Nat.leb_spec (length (slots_after hint n)) n) as [L|L]; [|apply IH].
    rewrite app_length, repeat_length. intros H. destruct (Nat.ltb_spec i (length (slots_after hint n))) as [J|J].
    + rewrite nth_error_app1 by exact J. apply IH, J.
    + rewrite nth_error_app2 by exact J. rewrite List.nth_error_repeat by lia.
      assert (K : forall m, N.max 1 hint <= N.of_nat (length (slots_after hint m))).
      { clear. induction m as [|m IH]; cbn [slots_after]; unfold slots_new, slots_append; [rewrite repeat_length; lia|].
        destruct (Nat.leb _ _); [rewrite app_length|]; lia. }
      specialize (K n). replace (N.of_nat i <? N.max 1 hint) with false; [reflexivity|]. symmetry. apply N.ltb_ge. lia.
Qed.
Lemma slots_len hint n : (n <= length (slots_after hint n))%nat /\ (1 <= length (slots_after hint n))%nat.
Proof.
  induction n as [|n IH]; cbn [slots_after]; unfold slots_new, slots_append; [rewrite repeat_length; lia|].
  destruct (Nat.leb_spec (length (slots_after hint n)) n); [rewrite app_length, repeat_length|]; lia.
Qed.
Lemma bump_nth i : forall j l, nth_error (bump i l) j =
  if Nat.eqb i j then option_map (option_map (fun h => (h + 1) mod 2 ^ 32)) (nth_error l j) else nth_error l j.
Proof.
  induction i as [|i IH]; intros [|j] [|h l]; cbn [bump nth_error Nat.eqb option_map]; try reflexivity.
  - now destruct (Nat.eqb i j).
  - apply IH.
Qed.
Lemma events_nth j l tr : nth_error (fold_right count_ev l tr) j =
  option_map (option_map (fun h => if delivered j tr =? 0 then h else (h + delivered j tr) mod 2 ^ 32)) (nth_error l j).
Proof.
  induction tr as [|ev tr IH]; cbn [fold_right].
  - unfold delivered. cbn. destruct (nth_error l j) as [[h|]|]; reflexivity.
  - assert (D : delivered j (ev :: tr) = (if match ev with TAnswer i (Some k) => Nat.eqb j i && (0 <? k) | _ => false end then 1 else 0) + delivered j tr).
    { unfold delivered. cbn [filter]. destruct (match ev with TAnswer i (Some k) => Nat.eqb j i && (0 <? k) | _ => false end); cbn [length]; lia. }
    rewrite D. clear D. destruct ev as [ |i [k|] | | | | | | | ]; cbn [count_ev];
      try (rewrite IH; reflexivity).
    destruct (0 <? k); [|rewrite andb_false_r; rewrite IH; reflexivity]. rewrite bump_nth, andb_true_r, (Nat.eqb_sym j i).
    destruct (Nat.eqb i j); rewrite IH; [|reflexivity]. clear.
    destruct (nth_error l j) as [[h|]|]; cbn [option_map]; try reflexivity. do 2 f_equal.
    destruct (N.eqb_spec (delivered j tr) 0) as [->|Z].
    + reflexivity.
    + replace (1 + delivered j tr =? 0) with false by (symmetry; apply N.eqb_neq; lia).
      rewrite N.add_mod_idemp_l by discriminate. replace (h + delivered j tr + 1) with (h + (1 + delivered j tr)) by lia. reflexivity.
Qed.
Lemma report_nth hint n tr i : (i < n)%nat ->
  nth_error (report hint n tr) i = Some (if N.of_nat i <? N.max 1 hint then Some (delivered i tr mod 2 ^ 32) else None).
Proof.
  intros H. unfold report. destruct (slots_len hint n) as (L & _).
  assert (F : forall {A} (m : list A) k, (i < k)%nat -> nth_error (firstn k m) i = nth_error m i).
  { clear. intros A m. revert i. induction m as [|a m IH]; intros [|i] [|k] H; cbn; try reflexivity; try lia. apply IH. lia. }
  rewrite F by exact H. rewrite events_nth, slots_nth by lia. cbn [option_map].
  destruct (N.of_nat i <? N.max 1 hint); cbn [option_map]; [|reflexivity]. do 2 f_equal.
  destruct (N.eqb_spec (delivered i tr) 0) as [->|Z]; reflexivity.
Qed.
(** *** How many stores a run has *)
Definition no_bad (b : bad) (w : world) : Prop := True.
Lemma wp_any {A} (m : M A) w : wp m (fun _ _ => True) no_bad w.
Proof. unfold wp, no_bad. destruct (m w) as [[a| | |] w']; exact Logic.I. Qed.
Lemma wp_skip {A B} (m : M A) (k : A -> M B) Q w : (forall a w, wp (k a) Q no_bad w) -> wp (bind m k) Q no_bad w.
Proof. intros H. apply wp_bind. eapply wp_mono; [apply wp_any | intros a w' _; apply H | auto]. Qed.

Definition grown (b : building) (k : nat) (b' : building) : Prop := length (b_chain b') = (length (b_chain b) + k)%nat.
Lemma append_len space l s w : wp (store_chain_append space l s) (fun r _ => fst (fst r) = true -> length (snd r) = (length l + 1)%nat) no_bad w.
Proof.
  unfold store_chain_append. apply wp_skip. intros [|] w1; cbn [negb]; [|apply wp_ret; discriminate].
  destruct (space <=? N.of_nat (length l)); match goal with |- context [if ?c then _ else _] => destruct c end;
    try (apply wp_ub; exact Logic.I); apply wp_ret; intros _; cbn [snd]; now rewrite app_length.
Qed.
Lemma append1_len E tp cp n b arg w :
  wp (append_store_from_arg E tp cp n b arg) (fun r _ => match r with Some b' => grown b 1 b' | None => True end) no_bad w.
Proof.
  unfold append_store_from_arg. apply wp_skip. intros [[s t]|] w1; [|apply wp_ret; exact Logic.I].
  apply wp_bind. eapply wp_mono; [apply append_len | | auto]. cbn beta. intros [[ok sp] ch] w2 H. apply wp_ret.
  destruct ok; [|exact Logic.I]. exact (H eq_refl).
Qed.
Lemma appends_len E tp cp n args : forall b w,
  wp (append_stores E tp cp n b args) (fun r _ => match r with Some b' => grown b (length args) b' | None => True end) no_bad w.
Proof.
  induction args as [|a args IH]; intros b w; cbn [append_stores]; [apply wp_ret; unfold grown; cbn; lia|].
  apply wp_bind. eapply wp_mono; [apply append1_len | | auto]. cbn beta. intros [b1|] w1 H; [|apply wp_ret; exact Logic.I].
  eapply wp_mono; [apply IH | | auto]. cbn beta. intros [b2|] w2; [|auto]. unfold grown in *. cbn [length]. lia.
Qed.
Lemma opts_len E tp cp n os : forall b w,
  wp (casync_opts E tp cp n b os) (fun r _ => match r with OptsDone b' => grown b (length (store_opts os)) b' | _ => True end) no_bad w.
Proof.
  induction os as [|o os IH]; intros b w; cbn [casync_opts]; [apply wp_ret; unfold grown; cbn; lia|].
  destruct o as [|a| |]; try (apply wp_ret; exact Logic.I); [|apply IH].
  apply wp_bind. eapply wp_mono; [apply append1_len | | auto]. cbn beta. intros [b1|] w1 H; [|apply wp_ret; exact Logic.I].
  eapply wp_mono; [apply IH | | auto]. cbn beta. intros [b2| | |] w2; auto. unfold grown in *. cbn [store_opts flat_map app length]. unfold store_opts. lia.
Qed.
Definition n_stores (argv : list bytes) (r : init_res) (w : world) : Prop :=
  match r with InitOk su => forall chain, su_store su = Some chain -> length chain = length (cmd_stores argv) | _ => True end.
Lemma init_len E argv w : wp (init E argv) (n_stores argv) no_bad w.
Proof.
  unfold init. destruct (beq (basename (nth 0 argv [])) (bs "csn")) eqn:Ecsn.
  - unfold csn. destruct argv as [|a0 [|ip [|tp [|s0 rest]]]]; try (apply wp_ret; exact Logic.I).
    apply wp_skip. intros [|] w1; cbn [negb]; [|apply wp_ret; exact Logic.I].
    destruct (e_open E ip); [|apply wp_ret; exact Logic.I].
    apply wp_skip. intros [[cp k]|] w2; [|apply wp_ret; exact Logic.I].
    apply wp_skip. intros [t|] w3; [|apply wp_ret; exact Logic.I].
    apply wp_skip. intros [sp|] w4; [|apply wp_ret; exact Logic.I].
    apply wp_bind. eapply wp_mono; [apply appends_len | | auto]. cbn beta. intros [b|] w5 H; apply wp_ret; [|exact Logic.I].
    intros chain E1. cbn [su_store] in E1. injection E1 as <-. unfold grown in H. rewrite H. unfold cmd_stores, is_csn. rewrite Ecsn. reflexivity.
  - destruct (beq (basename (nth 0 argv [])) (bs "casync")); [|apply wp_ret; exact Logic.I].
    unfold casync. destruct (Nat.ltb (length argv) 3); [apply wp_ret; exact Logic.I|].
    destruct (e_open E _); [|apply wp_ret; exact Logic.I].
    apply wp_skip. intros [[cp k]|] w2; [|apply wp_ret; exact Logic.I].
    apply wp_skip. intros [t|] w3; [|apply wp_ret; exact Logic.I].
    apply wp_skip. intros [sp|] w4; [|apply wp_ret; exact Logic.I].
    destruct (getopt_all (skipn 1 argv)) as [os ns] eqn:Eo.
    apply wp_bind. eapply wp_mono; [apply opts_len | | auto]. cbn beta. intros [b|b| |] w5 H; try (apply wp_ret; exact Logic.I).
    + destruct (_ || _); apply wp_ret; [exact Logic.I|]. intros chain E1. cbn [su_store] in E1. injection E1 as <-.
      unfold grown in H. rewrite H. unfold cmd_stores, is_csn. rewrite Ecsn, Eo. reflexivity.
    + apply wp_ret. intros chain E1. discriminate E1.
Qed.
Lemma chain_length E argv w su w' chain : init E argv w = (Ok (InitOk su), w') -> su_store su = Some chain -> length chain = length (cmd_stores argv).
Proof. intros R. pose proof (init_len E argv w) as H. unfold wp in H. rewrite R in H. exact (H chain). Qed.

Lemma report_right E argv w su w' chain tr i : init E argv w = (Ok (InitOk su), w') -> su_store su = Some chain ->
  (is_csn argv = true \/ 2 * length (cmd_stores argv) + 2 <= length argv)%nat ->
  (i < length chain)%nat -> nth_error (report (hint_of argv) (length chain) tr) i = Some (Some (delivered i tr mod 2 ^ 32)).
Proof.
  intros R Hs. rewrite (chain_length _ _ _ _ _ _ R Hs). intros G H.
  rewrite report_nth by exact H. replace (N.of_nat i <? _) with true; [reflexivity|]. symmetry. apply N.ltb_lt.
  unfold hint_of, cmd_stores in *. destruct (is_csn argv) eqn:Ec.
  - rewrite skipn_length in H. lia.
  - destruct G as [G|G]; [discriminate|]. set (n := length (store_opts _)) in *.
    assert (n - 1 <= (length argv - 4) / 2)%nat; [|lia]. transitivity ((2 * (n - 1)) / 2)%nat.
    + rewrite Nat.mul_comm, Nat.div_mul; lia.
    + apply Nat.div_le_mono; lia.
Qed.
