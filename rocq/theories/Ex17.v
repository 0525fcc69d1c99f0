(** Concrete cases for C79 and C80. *)
From Verif Require Import Base Lib Utils MainProg SpecRun SpecCasync SpecGetopt PfGetopt Toy Ex2 Ex4 Ex6 Ex16.
Local Open Scope N_scope.

(** *** The documented form, with an abbreviation and both ways of giving a value *)
Definition opts_x : list bytes := [bs "--sto=s"; bs "--seed"; bs "t"; bs "--seed-output"; bs "no"].
Lemma store_names : stands_for (bs "sto") (bs "store") /\ stands_for (bs "seed") (bs "seed") /\ stands_for (bs "seed-output") (bs "seed-output").
Proof.
  split; [|split; (split; [cbn; auto 10|now left])]. split; [cbn; auto|]. right. split; [now exists (bs "re")|].
  intros n t Hn. cbn in Hn. destruct Hn as [<-|[<-|[<-|[<-|[]]]]]; intros H; vm_compute in H; try discriminate. reflexivity.
Qed.
Lemma options_x : options opts_x [bs "s"; bs "t"].
Proof.
  destruct store_names as (A & B & C). apply (options_store_eq (bs "sto") (bs "s")); [now left|]. apply (options_store (bs "seed") (bs "t")); [now right|].
  apply (options_ignored (bs "seed-output") (bs "no")); [exact C|constructor].
Qed.
Lemma documented_x : options opts_x [bs "s"; bs "t"] /\ word (bs "i") /\ word (bs "t") /\ Forall (fun a => ~ mentions a) [bs "s"; bs "t"] /\ w_alloc w_run = [] /\
  starts (fst (init toy0 (bs "casync" :: opts_x ++ [bs "extract"; bs "i"; bs "t"]) w_run)) = true.
Proof.
  split; [exact options_x|]. split; [right; intros t; discriminate|]. split; [right; intros t; discriminate|]. split; [repeat constructor; apply short_mentions; vm_compute; lia|].
  split; [reflexivity|vm_compute; reflexivity].
Qed.
(** *** Options after the words *)
Definition late : list bytes := [bs "casync"; bs "extract"; bs "i"; bs "t"; bs "--store=s"].
Lemma late_line : line (skipn 1 late) [bs "s"] [bs "extract"; bs "i"; bs "t"].
Proof.
  do 3 (apply line_word; [right; intros t; discriminate|]). apply (line_store_eq (bs "store") (bs "s")); [|constructor]. left. split; [cbn; auto|now left].
Qed.
Definition late_diff : bool * bool := (starts (fst (init toy0 late w_run)), starts (fst (init toy0 [bs "csn"; bs "i"; bs "t"; bs "s"] w_run))).
Lemma late_result : late_diff = (false, true). Proof. vm_compute. reflexivity. Qed.
Lemma late_refuted : exists E argv i t s w, beq (basename (nth 0 argv [])) (bs "casync") = true /\ line (skipn 1 argv) [s] [bs "extract"; i; t] /\ w_alloc w = [] /\ e_getenv E DRIVER = None /\
  starts (fst (init E [bs "csn"; i; t; s] w)) = true /\ starts (fst (init E argv w)) = false.
Proof.
  exists toy0, late, (bs "i"), (bs "t"), (bs "s"), w_run. split; [reflexivity|]. split; [exact late_line|]. split; [reflexivity|]. split; [reflexivity|].
  pose proof late_result as R. unfold late_diff in R. apply pair_equal_spec in R. tauto.
Qed.
