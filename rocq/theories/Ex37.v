(** A run of patchdd that is interrupted and one after it (C103). *)
From Verif Require Import Base Lib Utils MainProg Patchdd SpecBasic SpecRun SpecPatch SpecFrontier SpecRepeat SpecPatch2 Toy Ex1 Ex2 Ex4 Ex6 Ex7.
Local Open Scope N_scope.

Definition tries37 : list attempt := [mkAttempt toy0 pd (pd_world io_cut s5 d7) 116; mkAttempt toy0 pd (pd_world io_good s5 (bs "abcdYfg")) 116].
Lemma patchings37 : patchings s5 d7 tries37 (bs "abcdefg").
Proof.
  split; [exists 115%nat; split; vm_compute; reflexivity|]. split; [reflexivity|]. split; [vm_compute; reflexivity|].
  split; [exists 115%nat; split; vm_compute; reflexivity|]. split; [reflexivity|]. split; vm_compute; reflexivity.
Qed.
Lemma run37 : let r := patchdd_main toy0 pd (pd_world io_cut s5 d7) in
  src_of toy0 pd = Some 115%nat /\ dst_of toy0 pd = Some 116%nat /\ firstn 2 d7 = firstn 2 s5 /\ fst r = Halt /\ writes (w_trace (snd r)) = [(2, bs "cd")].
Proof. vm_compute. repeat split. Qed.
Lemma amounts37 : map (fun a => amount (w_trace (pat_end a))) tries37 = [2; 1]%nat.
Proof. vm_compute. reflexivity. Qed.
