(** A small concrete environment used to show that hypotheses can be met and to exhibit
    counterexamples: files are given by inode, "SHA-256" is the data padded to 32 bytes with its
    length (so it is injective on data shorter than 31 bytes), decompression is the identity. *)
From Coq Require Import Sorting.Permutation Sorting.Sorted.
From Verif Require Import Base Lib SpecEnv.

Definition toyH (d : bytes) : bytes :=
  map (fun b => b mod 256)%N (firstn 31 (d ++ repeat 0%N 31)) ++ [blen d mod 256]%N.

(** insertion sort and linear search *)
Fixpoint ins (e : entry) (l : list entry) : list entry :=
  match l with
  | [] => [e]
  | x :: r => if id_leb (en_id e) (en_id x) then e :: l else x :: ins e r
  end.
Fixpoint isort (l : list entry) : list entry :=
  match l with [] => [] | e :: r => ins e (isort r) end.
Fixpoint lsearch (l : list entry) (id : bytes) (i : nat) : option nat :=
  match l with
  | [] => None
  | e :: r => if beq (en_id e) id then Some i else lsearch r id (S i)
  end.

Definition toy_env (server : bytes -> nat -> perf) (open_ro open_rw : bytes -> option nat)
    (kind : nat -> fkind) (getenv : bytes -> option bytes) : env :=
  mkEnv toyH isort (fun l id => lsearch l id 0)
    (fun _ inp room => Some (Nat.min (length inp) room, firstn (Nat.min (length inp) room) inp))
    server open_ro open_rw kind getenv true true false.

Definition no_server : bytes -> nat -> perf := fun _ _ => mkPerf None [] CURLE_COULDNT_CONNECT.
(** Paths of one character; the inode is the character's code. *)
Definition open_char (p : bytes) : option nat := match p with [c] => Some (N.to_nat c) | _ => None end.
Definition toy0 : env := toy_env no_server open_char open_char (fun _ => KReg) (fun _ => None).

Definition files_of (l : list (nat * bytes)) : nat -> bytes :=
  fun i => match find (fun p => Nat.eqb (fst p) i) l with Some p => snd p | None => [] end.
(** A world with these files and a schedule of [n] large transfers. *)
Definition toy_world (fs : list (nat * bytes)) (n : nat) : world :=
  mkWorld (files_of fs) (repeat (IoN 1000) n) [] false [] 0 [].

Lemma id_leb_refl a : id_leb a a = true.
Proof. induction a as [|x a IH]; cbn; [reflexivity|]. rewrite N.eqb_refl, IH. apply orb_true_r. Qed.
Lemma id_leb_total : forall a b, id_leb a b = true \/ id_leb b a = true.
Proof.
  induction a as [|x a IH]; intros [|y b]; cbn; auto.
  destruct (N.lt_trichotomy x y) as [H|[H|H]].
  - left. replace (x <? y)%N with true by lia. reflexivity.
  - subst. rewrite N.eqb_refl, N.ltb_irrefl. cbn. apply IH.
  - right. replace (y <? x)%N with true by lia. reflexivity.
Qed.
Lemma id_leb_trans : forall a b c, id_leb a b = true -> id_leb b c = true -> id_leb a c = true.
Proof.
  induction a as [|x a IH]; intros [|y b] [|z c] H1 H2; cbn in *; try discriminate; auto.
  apply orb_prop in H1, H2. destruct H1 as [H1|H1].
  - destruct H2 as [H2|H2].
    + replace (x <? z)%N with true by lia. reflexivity.
    + apply andb_prop in H2 as [H2 _]. replace (x <? z)%N with true by lia. reflexivity.
  - apply andb_prop in H1 as [H1 H1']. assert (x = y) by lia. subst. destruct H2 as [H2|H2].
    + rewrite H2. reflexivity.
    + apply andb_prop in H2 as [H2 H2']. rewrite H2, (IH _ _ H1' H2'). apply orb_true_r.
Qed.
Lemma id_leb_antisym : forall a b, id_leb a b = true -> id_leb b a = true -> a = b.
Proof.
  induction a as [|x a IH]; intros [|y b] H1 H2; cbn in *; try discriminate; auto.
  apply orb_prop in H1, H2. destruct H1 as [H1|H1], H2 as [H2|H2];
    try (apply andb_prop in H1 as [H1 H1']); try (apply andb_prop in H2 as [H2 H2']); try lia.
  f_equal; [lia|]. auto.
Qed.

Lemma toy_ok server o1 o2 k g : env_ok (toy_env server o1 o2 k g).
Proof.
  repeat split; cbn [toy_env e_H e_qsort e_bsearch e_zstep] in *.
  - unfold toyH. rewrite app_length, map_length, firstn_length, app_length, repeat_length. cbn [length]. lia.
  - unfold toyH. apply Forall_app. split.
    + apply Forall_map, Forall_forall. intros. apply N.mod_lt. lia.
    + constructor; [|constructor]. apply N.mod_lt. lia.
  - induction l as [|e l IH]; cbn; [constructor|].
    etransitivity; [apply perm_skip, IH|]. generalize (isort l). clear. intros l.
    induction l as [|x l IH]; cbn; [reflexivity|].
    destruct (id_leb (en_id e) (en_id x)); [reflexivity|]. rewrite perm_swap. now apply perm_skip.
  - unfold ids_sorted. induction l as [|e l IH]; cbn; [constructor|].
    generalize dependent (isort l). clear. intros l H.
    induction H as [|x l Hs IH F]; cbn; [repeat constructor|].
    destruct (id_leb (en_id e) (en_id x)) eqn:E.
    + constructor; [now constructor|]. constructor; [exact E|].
      eapply Forall_impl; [|exact F]. cbn. intros a Ha. eapply id_leb_trans; eauto.
    + constructor; [exact IH|].
      assert (G : id_leb (en_id x) (en_id e) = true) by (destruct (id_leb_total (en_id x) (en_id e)); congruence).
      clear -F G. induction F as [|y l Hy F IH]; cbn; [repeat constructor; exact G|].
      destruct (id_leb (en_id e) (en_id y)); repeat constructor; auto.
  - intros l id _. assert (G : forall k, match lsearch l id k with
      | Some i => exists e, nth_error l (i - k) = Some e /\ en_id e = id /\ k <= i
      | None => forall e, In e l -> en_id e <> id end).
    { induction l as [|e l IH]; intros n; cbn; [tauto|].
      destruct (beq (en_id e) id) eqn:E.
      - exists e. rewrite Nat.sub_diag. apply beq_eq in E. auto.
      - specialize (IH (S n)). destruct (lsearch l id (S n)) as [i|].
        + destruct IH as (e0 & H1 & H2 & H3). exists e0. replace (i - n) with (S (i - S n)) by lia.
          repeat split; auto. lia.
        + intros e0 [<-|H]; [apply beq_neq; exact E|auto]. }
    cbn [toy_env e_bsearch]. specialize (G 0). destruct (lsearch l id 0) as [i|]; [|exact G].
    destruct G as (e & H1 & H2 & _). rewrite Nat.sub_0_r in H1. eauto.
  - cbn in H. injection H as <- <-. lia.
  - cbn in H. injection H as <- <-. rewrite firstn_length. lia.
Qed.
