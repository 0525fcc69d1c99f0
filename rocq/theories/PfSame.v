(** C83: the result depends on the index only; C84: exit statuses. *)
From Verif Require Import Base Lib SpecBasic SpecEnv Utils Chunker Caibx MainProg Patchdd Tool SpecCaibx SpecMain SpecRun PfBasic PfIO PfCaibx PfRun PfSync.
Local Open Scope N_scope.

(** ** C83 *)
Lemma slices_agree h f g1 g2 n : (forall i, (i < n)%nat -> ent_start f i <= ent_end f i) ->
  (forall i, (i < n)%nat -> 0 < ent_size f i -> h (ent_slice f i g1) = ent_id f i) -> (forall i, (i < n)%nat -> 0 < ent_size f i -> h (ent_slice f i g2) = ent_id f i) ->
  firstn (N.to_nat (ent_start f n)) g1 = firstn (N.to_nat (ent_start f n)) g2 \/
  exists i, (i < n)%nat /\ ent_slice f i g1 <> ent_slice f i g2 /\ h (ent_slice f i g1) = h (ent_slice f i g2 : bytes).
Proof.
  intros Hm H1 H2. induction n as [|n IH]; [left; reflexivity|].
  destruct IH as [IH|(i & Hi & X)]; [intros; apply Hm; lia|intros; apply H1; auto|intros; apply H2; auto| |right; exists i; split; [lia|exact X]].
  destruct (list_eq_dec N.eq_dec (ent_slice f n g1) (ent_slice f n g2)) as [Q|Q].
  - left. cbn [ent_start]. replace (N.to_nat (ent_end f n)) with (N.to_nat (ent_start f n) + N.to_nat (ent_size f n))%nat by (specialize (Hm n ltac:(lia)); unfold ent_size; lia).
    rewrite !firstn_skipn_add, IH. f_equal. exact Q.
  - right. exists n. split; [lia|]. split; [exact Q|]. destruct (N.eq_dec (ent_size f n) 0) as [Z|Z].
    + exfalso. apply Q. unfold ent_slice, slice. rewrite Z. reflexivity.
    + rewrite H1, H2 by lia. reflexivity.
Qed.
Lemma same_result E1 argv1 w1 w1' E2 argv2 w2 w2' iino1 iino2 tino1 tino2 p n :
  sane E1 argv1 w1 -> good_index E1 argv1 w1 -> hash_reliable E1 w1 -> main E1 argv1 w1 = (Ok 0, w1') ->
  sane E2 argv2 w2 -> good_index E2 argv2 w2 -> hash_reliable E2 w2 -> main E2 argv2 w2 = (Ok 0, w2') ->
  (forall d, e_H E1 d = e_H E2 d) -> e_open E1 (cmd_index argv1) = Some iino1 -> e_open E2 (cmd_index argv2) = Some iino2 -> w_files w1 iino1 = w_files w2 iino2 ->
  e_open_rw E1 (cmd_target argv1) = Some tino1 -> e_open_rw E2 (cmd_target argv2) = Some tino2 -> valid_index (w_files w1 iino1) p n ->
  let size := ent_start (w_files w1 iino1) (N.to_nat n) in
  size <= blen (w_files w1' tino1) /\ size <= blen (w_files w2' tino2) /\
  (firstn (N.to_nat size) (w_files w1' tino1) = firstn (N.to_nat size) (w_files w2' tino2) \/
   exists i, (i < N.to_nat n)%nat /\ ent_slice (w_files w1 iino1) i (w_files w1' tino1) <> ent_slice (w_files w1 iino1) i (w_files w2' tino2) /\
     e_H E1 (ent_slice (w_files w1 iino1) i (w_files w1' tino1)) = e_H E1 (ent_slice (w_files w1 iino1) i (w_files w2' tino2))).
Proof.
  intros S1 G1 R1 M1 S2 G2 R2 M2 HH I1 I2 HF T1 T2 HV size.
  destruct (success_authentic _ _ _ _ S1 G1 R1 M1) as (a1 & b1 & p1 & n1 & A1 & B1 & V1 & C1). destruct (success_authentic _ _ _ _ S2 G2 R2 M2) as (a2 & b2 & p2 & n2 & A2 & B2 & V2 & C2).
  assert (a1 = iino1) as -> by congruence. assert (b1 = tino1) as -> by congruence. assert (a2 = iino2) as -> by congruence. assert (b2 = tino2) as -> by congruence.
  specialize (G1 _ _ _ I1 HV). rewrite <- HF in *. assert (n1 = n) as -> by (eapply valid_unique; eauto). assert (n2 = n) as -> by (eapply valid_unique; eauto).
  set (f := w_files w1 iino1) in *. set (k := N.to_nat n) in *.
  assert (L : forall g, (forall i, (i < k)%nat -> ent_end f i <= blen g) -> size <= blen (g : bytes)).
  { intros g H. subst size. destruct k as [|k']; [cbn; lia|]. cbn [ent_start]. apply H. lia. }
  split; [apply L; intros; now apply C1|]. split; [apply L; intros; now apply C2|]. apply slices_agree.
  - intros i Hi. now apply G1.
  - intros i Hi. now apply C1.
  - intros i Hi Hz. rewrite HH. now apply C2.
Qed.

(** ** C84 *)
Definition always {A B} (P : A -> Prop) (r : outcome A * B) : Prop := match fst r with Ok c => P c | _ => True end.
Lemma always_bind A B (P : B -> Prop) (m : M A) k w : (forall a w, always P (k a w)) -> always P (bind m k w).
Proof. intros H. unfold bind, always. destruct (m w) as [[a| | |] w']; cbn; try exact I. apply H. Qed.
Lemma always_post A B (Q : A -> Prop) (P : B -> Prop) (m : M A) k w : always Q (m w) -> (forall a w, Q a -> always P (k a w)) -> always P (bind m k w).
Proof. intros G H. unfold bind, always in *. destruct (m w) as [[a| | |] w']; cbn in *; try exact I. now apply H. Qed.
Lemma always_ret A (P : A -> Prop) a w : P a -> always P (ret a w). Proof. exact (fun H => H). Qed.
Definition binary (c : N) : Prop := c = 0 \/ c = 1.
Definition exits1 (r : init_res) : Prop := match r with InitExit c => c = 1 | _ => True end.
Ltac step := first [apply always_ret; solve [exact I|reflexivity|now left|now right] | apply always_bind; intros ? ?].
Lemma csn_exits E argv w : always exits1 (csn E argv w).
Proof. unfold csn. repeat first [step | match goal with |- always _ ((if ?b then _ else _) _) => destruct b | |- always _ ((match ?x with _ => _ end) _) => destruct x | |- always _ (let _ := _ in _) => cbv zeta end]. Qed.
Lemma casync_exits E argv w : always exits1 (casync E argv w).
Proof. unfold casync. cbv zeta. repeat first [step | match goal with |- always _ ((if ?b then _ else _) _) => destruct b | |- always _ ((match ?x with _ => _ end) _) => destruct x | |- always _ (let _ := _ in _) => cbv zeta end]. Qed.
Lemma main_binary E argv w : always binary (main E argv w).
Proof.
  unfold main. cbv zeta. apply always_post with (Q := exits1).
  - destruct (beq _ _); [apply csn_exits|]. destruct (beq _ _); [apply casync_exits|]. reflexivity.
  - intros [su| |c] w1 H; [|now right|cbn in H; subst c; now right]. unfold run_sync. apply always_bind. intros [ok st] w2. destruct ok; [|now right]. cbn [negb]. destruct (m_store st); [|exact I].
    apply always_bind. intros _ w3. now left.
Qed.
Lemma patchdd_binary E argv w : always binary (patchdd_main E argv w).
Proof. unfold patchdd_main. repeat first [step | match goal with |- always _ ((if ?b then _ else _) _) => destruct b | |- always _ ((match ?x with _ => _ end) _) => destruct x end | apply always_ret; match goal with |- binary (if ?b then _ else _) => destruct b; [now left|now right] end]. Qed.
Lemma talways_bind A B (P : B -> Prop) (m : TM A) k w : (forall a w, always P (k a w)) -> always P (tbind m k w).
Proof. intros H. unfold tbind, always. destruct (m w) as [[a| | |] w']; cbn; try exact I. apply H. Qed.
Lemma talways_ret A (P : A -> Prop) a w : P a -> always P (tret a w). Proof. exact (fun H => H). Qed.
Ltac tstep := first [apply talways_ret; solve [now left|now right] | apply talways_bind; intros ? ?].
Lemma tool_binary argv w : always binary (tool_main argv w).
Proof. unfold tool_main, do_crypt. repeat first [tstep | match goal with |- always _ ((if ?b then _ else _) _) => destruct b | |- always _ ((match ?x with _ => _ end) _) => destruct x end | apply talways_ret; match goal with |- binary (if ?b then _ else _) => destruct b; [now left|now right] end]. Qed.
Lemma main_status E argv w c w' : main E argv w = (Ok c, w') -> c = 0 \/ c = 1.
Proof. intros H. pose proof (main_binary E argv w) as G. rewrite H in G. exact G. Qed.
Lemma patchdd_status E argv w c w' : patchdd_main E argv w = (Ok c, w') -> c = 0 \/ c = 1.
Proof. intros H. pose proof (patchdd_binary E argv w) as G. rewrite H in G. exact G. Qed.
Lemma tool_status argv w c w' : tool_main argv w = (Ok c, w') -> c = 0 \/ c = 1.
Proof. intros H. pose proof (tool_binary argv w) as G. rewrite H in G. exact G. Qed.
Lemma main_usage E argv w : let app := basename (nth 0 argv []) in app = bs "csn" /\ (length argv < 4)%nat \/ app = bs "casync" /\ (length argv < 3)%nat \/ app <> bs "csn" /\ app <> bs "casync" ->
  main E argv w = (Ok 1, w).
Proof.
  cbv zeta. unfold main. cbv zeta. intros [(A & L)|[(A & L)|(A & B)]].
  - rewrite A. change (beq (bs "csn") (bs "csn")) with true. cbv iota. unfold csn. destruct argv as [|a0 [|a1 [|a2 [|a3 rest]]]]; try reflexivity. cbn [length] in L. lia.
  - rewrite A. change (beq (bs "casync") (bs "csn")) with false. change (beq (bs "casync") (bs "casync")) with true. cbv iota. unfold casync. cbv zeta.
    rewrite (proj2 (Nat.ltb_lt _ _) L). reflexivity.
  - apply beq_neq in A, B. rewrite A, B. reflexivity.
Qed.
Lemma tool_usage argv w : (length argv < 2)%nat -> tool_main argv w = (Ok 1, w).
Proof. intros L. destruct argv as [|a [|b r]]; try reflexivity. cbn [length] in L. lia. Qed.
Lemma tool_unknown prog cmd rest w : cmd <> bs "crypt" -> tool_main (prog :: cmd :: rest) w = (Ok 0, w).
Proof. intros H. unfold tool_main. destruct (beq cmd (bs "-h") || beq cmd (bs "--help")); [reflexivity|]. apply beq_neq in H. rewrite H. reflexivity. Qed.
Lemma tool_unknown_ex : exists cmd, cmd <> bs "crypt" /\ cmd <> bs "-h" /\ cmd <> bs "--help" /\ forall prog rest w, tool_main (prog :: cmd :: rest) w = (Ok 0, w).
Proof. exists (bs "encrypt"). split; [discriminate|]. split; [discriminate|]. split; [discriminate|]. intros. apply tool_unknown. discriminate. Qed.
