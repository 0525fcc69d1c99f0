(** Proofs about an image that is copied on with patchdd (C105). *)
From Verif Require Import Base Lib Utils MainProg Patchdd SpecBasic SpecEnv SpecStore SpecCaibx SpecMain SpecRun SpecPatch SpecFrontier SpecRepeat SpecPatch2 PfIO PfSync PfPatch PfPatch2.
Local Open Scope N_scope.

Lemma patched_begins (img s d : bytes) : firstn (length img) s = img -> firstn (length img) (patched s d) = img.
Proof.
  intros H. assert (L : (length img <= length s)%nat). { rewrite <- H at 1. rewrite firstn_length. lia. }
  unfold patched. rewrite firstn_app. replace (length img - length s)%nat with 0%nat by lia. rewrite firstn_O, app_nil_r. exact H.
Qed.
Lemma patched_again (s d : bytes) p : (p <= length s)%nat -> (length s <= length d)%nat -> patched s (firstn p s ++ skipn p d) = patched s d.
Proof. intros Hp Hl. unfold patched. f_equal. apply skipn_join; lia. Qed.
Lemma patchings_length s : forall l g g', patchings s g l g' -> length g' = length g.
Proof.
  induction l as [|a l IH]; intros g g' H; [cbn in H; now subst|]. destruct H as ((src & S1 & S2) & D1 & D2 & H). apply IH in H. rewrite H.
  destruct (patchdd_stop (at_env a) (at_argv a) (at_world a)) as (_ & _ & M). destruct (M _ _ S1 D1) as ((M1 & _) & _). fold (pat_end a) in M1. now rewrite M1, D2.
Qed.

Lemma transferred E argv w w1 pieces tino E2 argv2 w2 w3 src dst d l : sane E argv w -> described E argv w pieces -> main E argv w = (Ok 0, w1) -> e_open_rw E (cmd_target argv) = Some tino ->
  let s := w_files w1 tino in let image := concat pieces in
  patchings s d l (w_files w2 dst) -> src_of E2 argv2 = Some src -> w_files w2 src = s -> dst_of E2 argv2 = Some dst -> patchdd_main E2 argv2 w2 = (Ok 0, w3) ->
  (firstn (length image) (w_files w3 dst) = image /\ w_files w3 dst = patched s d /\
     exists tr, run_trace w2 w3 tr /\ forall g, survives dst (rev tr) (w_files w2 dst) g -> firstn (length image) g = image) \/
  collision E pieces (fun y => exists f n i, (exists iino p, e_open E (cmd_index argv) = Some iino /\ w_files w iino = f /\ valid_index f p n) /\ (i < N.to_nat n)%nat /\ end_piece y (ent_slice f i s)).
Proof.
  intros HS HD HR Ht s image HP H1 H2 H3 HR2.
  destruct (success_image E argv w w1 pieces HS HD HR) as (iino & tino' & p & n & A1 & A2 & A3 & A4). rewrite Ht in A2. injection A2 as <-. fold s image in A4.
  destruct A4 as [A4|(x & y & C1 & C2 & C3 & C4)].
  2:{ right. exists x, y. split; [exact C1|]. split; [exact C2|]. split; [exact C3|]. destruct C4 as [C4|(i & C4 & C5)]; [now left|right]. exists (w_files w iino), n, i. split; [exists iino, p; auto|auto]. }
  left. destruct (patchdd_success E2 argv2 w2 w3 HR2) as (src' & dst' & B1 & B2 & B3 & B4 & _ & tr & B5 & B6). rewrite H1 in B1. rewrite H3 in B2. injection B1 as <-. injection B2 as <-.
  rewrite H2 in *. destruct (patchings_total s l d (w_files w2 dst) 0 HP) as (q & _ & Q1 & Q2 & _); [lia|reflexivity|].
  assert (Lg : (length s <= length (w_files w2 dst))%nat) by (unfold blen in B3; lia). rewrite (patchings_length _ _ _ _ HP) in Lg.
  assert (EP : patched s (w_files w2 dst) = patched s d) by (rewrite Q2; apply patched_again; lia).
  rewrite B4, EP. split; [now apply patched_begins|]. split; [reflexivity|]. exists tr. split; [exact B5|]. intros g Hg. rewrite (B6 g Hg). now apply patched_begins.
Qed.
