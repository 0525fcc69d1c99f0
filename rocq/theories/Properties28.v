(** C94: runs that are resumed, and local stores that have been damaged. *)
From Verif Require Import Base Utils Chunker Caibx StoreHttp Chain MainProg SpecBasic SpecEnv SpecChunker SpecCaibx SpecHttp SpecMain SpecRun SpecAvail SpecProgress SpecDelta SpecSupply SpecResume SpecUpdate SpecMend
  PfMend PfRepair Toy Ex2 Ex26 Ex28 Ex29.
Local Open Scope N_scope.

(** ** C94: what the target holds already is not needed from the stores, and a damaged store still gives what a scan finds in it.
    The stores of this run offer the chunks from the k-th on; those before are at the beginning of the target. *)
Theorem C94_offered E argv w pieces k p tino : offered_run E argv w pieces k p tino ->
  fst (main E argv w) = Ok 0 \/ exists tr, run_trace w (snd (main E argv w)) tr /\ false_answer E pieces tr.
Proof. exact (offered_succeeds E argv w pieces k p tino). Qed.
Print Assumptions C94_offered.
(** test_resumption and test_ab_sideload_bitrot, for every image, damage, and progress of the earlier run: the target ends up
    with [new], unless a store answers with other data that has the hash asked for, or two strings of the run have the same hash. *)
Theorem C94_repair E argv w flags p D old bad new k tino : repair_run E argv w flags p D old bad new k tino ->
  let w' := snd (main E argv w) in exists tr, run_trace w w' tr /\
  ((fst (main E argv w) = Ok 0 /\ w_files w' tino = new ++ skipn (length new) (w_files w tino)) \/
   false_answer E (chunks p D new) tr \/
   collision E (chunks p D new) (fun y => (exists a l, end_piece y (slice a l (w_files w' tino))) \/ exists o d, In (TPut tino o d) tr /\ end_piece y d)).
Proof. exact (repair_works E argv w flags p D old bad new k tino). Qed.
Print Assumptions C94_repair.

(** An image of four pieces.  The target has the first one, which no store has; the second one and the last one are in the local store; the third one,
    listed in the index of the local store, has been changed there, and is on the server.  The run asks the server for that one only. *)
Example C94_meets n : (need29 <= n)%nat -> repair_run E29 argv29 (w29 n) 0 p_ex 45 old29 bad29 new29 1 116.
Proof. exact (repair29 n). Qed.
Example C94_meets_offered n : (need29 <= n)%nat -> offered_run E29 argv29 (w29 n) (chunks p_ex 45 new29) 1 p_ex 116.
Proof. intros H. exact (repair_offered _ _ _ _ _ _ _ _ _ _ _ (repair29 n H)). Qed.
Example C94_run : let r := main E29 argv29 (w29 60) in (fst r, w_files (snd r) 116%nat, asked_of 1 (w_trace (snd r))) = (Ok 0, new29, [toyH x2]).
Proof. exact run29. Qed.
