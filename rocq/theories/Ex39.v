(** The target of a run, copied on in two attempts (C105). *)
From Verif Require Import Base Lib Utils MainProg Patchdd SpecBasic SpecEnv SpecStore SpecCaibx SpecMain SpecRun SpecPatch SpecFrontier SpecRepeat SpecPatch2 Toy Ex1 Ex2 Ex4 Ex6 Ex7.
Local Open Scope N_scope.

Definition pd39 : list bytes := [bs "patchdd"; bs "t"; bs "s"].
Definition old39 : bytes := repeat 7 250.
Definition img39 : bytes := concat pieces_run.
Definition w39 (io : list ioev) (d : bytes) : world := mkWorld (files_of [(116%nat, img39); (115%nat, d)]) io [] false [] 0 [].
(** 100 bytes are written, then the machine stops *)
Definition part39 : bytes := firstn 100 img39 ++ skipn 100 old39.
Definition tries39 : list attempt := [mkAttempt toy0 pd39 (w39 [IoN 1000; IoN 1000; IoN 99] old39) 115].
Lemma patchings39 : patchings img39 old39 tries39 (w_files (w39 io_good part39) 115%nat).
Proof. split; [exists 116%nat; split; vm_compute; reflexivity|]. split; [reflexivity|]. split; [vm_compute; reflexivity|]. vm_compute. reflexivity. Qed.
Lemma last39 : let r := patchdd_main toy0 pd39 (w39 io_good part39) in fst r = Ok 0 /\ w_files (snd r) 115%nat = img39 ++ skipn 240 old39.
Proof. split; vm_compute; reflexivity. Qed.
Lemma meets39 : sane toy0 csn_s w_run /\ described toy0 csn_s w_run pieces_run /\ e_open_rw toy0 (cmd_target csn_s) = Some 116%nat /\
  src_of toy0 pd39 = Some 116%nat /\ dst_of toy0 pd39 = Some 115%nat /\
  exists w1, main toy0 csn_s w_run = (Ok 0, w1) /\ w_files w1 116%nat = img39 /\ patchings (w_files w1 116%nat) old39 tries39 (w_files (w39 io_good part39) 115%nat) /\
    w_files (w39 io_good part39) 116%nat = w_files w1 116%nat.
Proof.
  split; [exact run_sane|]. split; [exact run_desc|]. do 3 (split; [reflexivity|]). destruct run_eq as (w1 & A & B & _). exists w1. rewrite B. split; [exact A|]. split; [reflexivity|]. split; [exact patchings39|reflexivity].
Qed.
