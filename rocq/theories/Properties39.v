(** An image that is copied on with patchdd (C105).  Statements only. *)
From Verif Require Import Base Lib Utils MainProg Patchdd SpecBasic SpecEnv SpecStore SpecCaibx SpecMain SpecRun SpecPatch SpecFrontier SpecRepeat SpecPatch2 PfTransfer Toy Ex1 Ex2 Ex4 Ex6 Ex7 Ex39.
Local Open Scope N_scope.

(** csn has succeeded and left [s] in its target.  patchdd copies that to a destination with contents [d] in any number of attempts, the last of
    which succeeds.  Then the destination begins with the image, also after a power failure, or else two strings have the same hash. *)
Theorem C105_transferred E argv w w1 pieces tino E2 argv2 w2 w3 src dst d l :
  sane E argv w -> described E argv w pieces -> main E argv w = (Ok 0, w1) -> e_open_rw E (cmd_target argv) = Some tino ->
  let s := w_files w1 tino in let image := concat pieces in
  patchings s d l (w_files w2 dst) -> src_of E2 argv2 = Some src -> w_files w2 src = s -> dst_of E2 argv2 = Some dst -> patchdd_main E2 argv2 w2 = (Ok 0, w3) ->
  (firstn (length image) (w_files w3 dst) = image /\ w_files w3 dst = patched s d /\
     exists tr, run_trace w2 w3 tr /\ forall g, survives dst (rev tr) (w_files w2 dst) g -> firstn (length image) g = image) \/
  collision E pieces (fun y => exists f n i, (exists iino p, e_open E (cmd_index argv) = Some iino /\ w_files w iino = f /\ valid_index f p n) /\
    (i < N.to_nat n)%nat /\ end_piece y (ent_slice f i s)).
Proof. exact (transferred E argv w w1 pieces tino E2 argv2 w2 w3 src dst d l). Qed.
Print Assumptions C105_transferred.

Example C105_meets : sane toy0 csn_s w_run /\ described toy0 csn_s w_run pieces_run /\ e_open_rw toy0 (cmd_target csn_s) = Some 116%nat /\
  src_of toy0 pd39 = Some 116%nat /\ dst_of toy0 pd39 = Some 115%nat /\
  exists w1, main toy0 csn_s w_run = (Ok 0, w1) /\ w_files w1 116%nat = img39 /\ patchings (w_files w1 116%nat) old39 tries39 (w_files (w39 io_good part39) 115%nat) /\
    w_files (w39 io_good part39) 116%nat = w_files w1 116%nat.
Proof. exact meets39. Qed.
Example C105_last : let r := patchdd_main toy0 pd39 (w39 io_good part39) in fst r = Ok 0 /\ w_files (snd r) 115%nat = img39 ++ skipn 240 old39.
Proof. exact last39. Qed.
