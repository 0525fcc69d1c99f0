(** What a successful run leaves in the target, to the last byte (C88). *)
From Verif Require Import Base Lib SpecBasic SpecEnv MainProg SpecCaibx SpecMain SpecRun PfSync.
Local Open Scope N_scope.

Lemma exact_target E argv w w' pieces : sane E argv w -> described E argv w pieces -> main E argv w = (Ok 0, w') ->
  exists iino tino p n, e_open E (cmd_index argv) = Some iino /\ e_open_rw E (cmd_target argv) = Some tino /\ valid_index (w_files w iino) p n /\
    (w_files w' tino = concat pieces ++ skipn (length (concat pieces)) (w_files w tino) \/
     collision E pieces (fun y => exists i, (i < N.to_nat n)%nat /\ end_piece y (ent_slice (w_files w iino) i (w_files w' tino))) \/
     exists tr, run_trace w w' tr /\ collision E pieces (fun y => exists o D, In (TPut tino o D) tr /\ end_piece y D)).
Proof.
  intros Hs Hd Hm. destruct (success_image E argv w w' pieces Hs Hd Hm) as (iino & tino & p & n & H1 & H2 & H3 & H4). exists iino, tino, p, n. split; [exact H1|]. split; [exact H2|]. split; [exact H3|].
  destruct H4 as [H4|H4]; [|right; now left]. pose proof (always_image E argv w pieces tino Hs Hd H2) as A. cbv zeta in A. rewrite Hm in A. cbn [snd] in A.
  destruct A as (tr & A1 & [A2|A2]); [left|right; right; exists tr; auto].
  rewrite <- (firstn_skipn (length (concat pieces)) (w_files w' tino)), H4. f_equal. apply nth_error_ext. intros i. rewrite !nth_error_skipn.
  destruct (A2 (length (concat pieces) + i)%nat) as [X|(X & _)]; [exact X|lia].
Qed.
