(** Power failures (C106): patchdd loses its first transfer but not the second; csn loses all but a transfer in the middle. *)
From Verif Require Import Base Lib Utils MainProg Patchdd SpecBasic SpecEnv SpecStore SpecCaibx SpecMain SpecRun SpecPatch SpecFrontier SpecRepeat SpecPatch2 SpecPower PfSync PfPower Toy Ex1 Ex2 Ex4 Ex6 Ex7.
Local Open Scope N_scope.

Definition io40 : list ioev := [IoN 1000; IoN 1000; IoN 0; IoN 1000].
Definition tries40 : list attempt := [mkAttempt toy0 pd (pd_world io40 s5 d7) 116].
(** "de" at 3 has arrived, "c" at 2 has not *)
Lemma cuts40 : patch_cuts s5 d7 tries40 (bs "abXdefg").
Proof.
  split; [exists 115%nat; split; vm_compute; reflexivity|]. split; [reflexivity|]. split; [vm_compute; reflexivity|].
  exists (bs "abXdefg"). split; [|reflexivity]. right. exists [TWrite 116 3 (bs "de"); TWrite 116 2 (bs "c")]. split; [vm_compute; reflexivity|].
  change (rev _) with [TWrite 116 2 (bs "c"); TWrite 116 3 (bs "de")]. apply sv_lose; [intros [X|[]]; discriminate|]. apply sv_keep.
  replace (bs "abXdefg") with (file_write (w_files (at_world (mkAttempt toy0 pd (pd_world io40 s5 d7) 116)) (at_target (mkAttempt toy0 pd (pd_world io40 s5 d7) 116))) (N.to_nat 3) (bs "de")) by (vm_compute; reflexivity).
  constructor.
Qed.
Lemma done40 : let w := pd_world io_good s5 (bs "abXdefg") in src_of toy0 pd = Some 115%nat /\ dst_of toy0 pd = Some 116%nat /\
  patch_cuts (w_files w 115%nat) d7 tries40 (w_files w 116%nat) /\ exists w', patchdd_main toy0 pd w = (Ok 0, w') /\ w_files w' 116%nat = bs "abcdefg".
Proof.
  cbv zeta. split; [reflexivity|]. split; [reflexivity|]. split; [exact cuts40|].
  assert (R : let r := patchdd_main toy0 pd (pd_world io_good s5 (bs "abXdefg")) in (fst r, w_files (snd r) 116%nat) = (Ok 0, bs "abcdefg")) by (vm_compute; reflexivity).
  cbv zeta in R. destruct (patchdd_main toy0 pd (pd_world io_good s5 (bs "abXdefg"))) as [c w']. cbn [fst snd] in R. injection R as -> R. eauto.
Qed.

Definition img40 : bytes := concat pieces_run.
(** the old 68 bytes, a hole, and 80 bytes of the image *)
Definition holed40 : bytes := t_run ++ repeat 0 77 ++ firstn 80 (skipn 145 img40).
Definition sync40 : list attempt := [mkAttempt toy0 csn_s w_run 116].
Lemma chosen40 : chosen 116 [false; true; false] (rev (w_trace (snd (main toy0 csn_s w_run)))) t_run = holed40.
Proof. vm_compute. reflexivity. Qed.
Lemma synccuts40 : sync_cuts pieces_run t_run sync40 holed40.
Proof.
  split; [exact run_sane|]. split; [exact run_desc|]. split; [reflexivity|]. split; [reflexivity|]. exists holed40. split; [|reflexivity]. right.
  destruct (never_flushed toy0 csn_s w_run) as (tr & T & N & _). exists tr. split; [exact T|].
  assert (ET : tr = w_trace (snd (main toy0 csn_s w_run))) by (rewrite T; symmetry; apply app_nil_r). rewrite <- chosen40, <- ET.
  apply survives_chosen. intros H. apply in_rev in H. exact (N _ H).
Qed.
Lemma again40 : let r := main toy0 csn_s (run_world l_run holed40) in (fst r, w_files (snd r) 116%nat) = (Ok 0, img40).
Proof. vm_compute. reflexivity. Qed.
Lemma holed_ok : bytes_ok holed40 /\ blen holed40 < OFF_LIMIT.
Proof. split; [apply small_bytes|]; vm_compute; reflexivity. Qed.
Lemma syncdone40 : let w := run_world l_run holed40 in sync_cuts pieces_run t_run sync40 (w_files w 116%nat) /\ sane toy0 csn_s w /\ described toy0 csn_s w pieces_run /\
  e_open_rw toy0 (cmd_target csn_s) = Some 116%nat /\ exists w', main toy0 csn_s w = (Ok 0, w') /\ w_files w' 116%nat = img40 ++ skipn (length img40) t_run.
Proof.
  cbv zeta. split; [exact synccuts40|]. split; [apply toy_sane; [exact l_run_ok|cbn; lia|apply holed_ok|apply holed_ok|constructor; [now right|constructor]]|].
  split; [apply toy_described; [exact l_run_ok|cbn; lia|exact run_described]|]. split; [reflexivity|].
  pose proof again40 as R. cbv zeta in R. destruct (main toy0 csn_s (run_world l_run holed40)) as [c w']. cbn [fst snd] in R. injection R as -> R. exists w'. split; [reflexivity|]. rewrite R. vm_compute. reflexivity.
Qed.
