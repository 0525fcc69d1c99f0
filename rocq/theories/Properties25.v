(** Properties C90 and C91: updates between images, and the images of the project's tests.  Statements only. *)
From Verif Require Import Base Lib SpecBasic SpecEnv SpecHttp SpecChunker SpecCaibx SpecMain SpecRun SpecAvail SpecProgress SpecDelta SpecSupply SpecUpdate SpecGen Chunker Caibx StoreHttp MainProg
  PfUpdate PfGen Toy Ex2 Ex9 Ex26.
Local Open Scope N_scope.

(** An update succeeds, leaves the new image in the target (and what lies behind it as it was), and asks the server only for
    chunks of the new image that are not chunks of the old one; or the server sent something else under the name of a chunk, or
    two strings with the same hash are known. *)
Theorem C90_update E argv w flags p D old new tino j : update_run E argv w flags p D old new tino j ->
  let w' := snd (main E argv w) in exists tr, run_trace w w' tr /\
  ((fst (main E argv w) = Ok 0 /\ w_files w' tino = new ++ skipn (length new) (w_files w tino) /\
    forall id, In id (asked_of j tr) -> exists c, In c (chunks p D new) /\ ~ In c (chunks p D old) /\ id = e_H E c) \/
   false_answer E (chunks p D new) tr \/
   collision E (chunks p D new) (fun y => (exists a l, end_piece y (slice a l (w_files w' tino))) \/ exists o d, In (TPut tino o d) tr /\ end_piece y d)).
Proof. exact (update_works E argv w flags p D old new tino j). Qed.
Print Assumptions C90_update.

(** A chunk inserted between two others. *)
Example C90_meets n : (need90 <= n)%nat -> update_run (shop [x2]) argv26 (w90 n) 0 p_ex 45 (x1 ++ x3) (x1 ++ x2 ++ x3) 116 1.
Proof. exact (met90 n). Qed.
Example C90_run : let r := main (shop [x2]) argv26 (w90 60) in (fst r, w_files (snd r) 116%nat, asked_of 1 (w_trace (snd r))) = (Ok 0, x1 ++ x2 ++ x3, [toyH x2]).
Proof. exact run90. Qed.

(** The chunks of the tests are chunks: images made of them are cut into just these, whatever comes after. *)
Theorem C91_chunks l rest : Forall made l -> chunks p_default d_default (concat l ++ rest) = l ++ chunks p_default d_default rest.
Proof. exact (made_chunks l rest). Qed.
Print Assumptions C91_chunks.
Theorem C91_sizes size b : 16384 <= size -> blen (make size b) = size.
Proof. exact (make_length size b). Qed.
Print Assumptions C91_sizes.
(** What the generator relies on: one byte before 47 zeros is no boundary, the pattern is one. *)
Theorem C91_windows : (forall b, b < 256 -> buzhash (b :: repeat 0 47) mod d_default <> d_default - 1) /\ (forall d, buzhash (last48 (d ++ break_pattern)) mod d_default = d_default - 1).
Proof. exact windows. Qed.
Print Assumptions C91_windows.
Theorem C91_discriminator : disc_of p_default d_default.
Proof. exact disc_default. Qed.
Print Assumptions C91_discriminator.
(** The indices of the tests are indices of the images. *)
Theorem C91_index E l : Forall made l -> make_caibx E l = casync_index E 0x9000000000000000 p_default d_default (concat l) /\ known_flags 0x9000000000000000.
Proof. exact (make_caibx_index E l). Qed.
Print Assumptions C91_index.
(** The test of an update, for all lists of chunks. *)
Theorem C91_update E argv w flags A B rest tino j : Forall made A -> Forall made B -> update_run E argv w flags p_default d_default (concat A ++ rest) (concat B) tino j ->
  let w' := snd (main E argv w) in exists tr, run_trace w w' tr /\
  ((fst (main E argv w) = Ok 0 /\ w_files w' tino = concat B ++ skipn (length (concat B)) (w_files w tino) /\
    forall id, In id (asked_of j tr) -> exists c, In c B /\ ~ In c A /\ id = e_H E c) \/
   false_answer E B tr \/
   collision E B (fun y => (exists a l, end_piece y (slice a l (w_files w' tino))) \/ exists o d, In (TPut tino o d) tr /\ end_piece y d)).
Proof. exact (tests_update E argv w flags A B rest tino j). Qed.
Print Assumptions C91_update.

(** The lists of test_ab_regular. *)
Example C91_meets_made : Forall made list_a /\ Forall made list_b.
Proof. exact made_ab. Qed.
Example C91_meets_update rest before n : bytes_ok rest -> bytes_ok before -> blen rest < 2 ^ 59 -> blen before < OFF_LIMIT -> (need91 rest before <= n)%nat ->
  update_run (shop [make 32768 4]) argv26 (w91 rest before n) 0 p_default d_default (concat list_a ++ rest) (concat list_b) 116 1.
Proof. exact (met91 rest before n). Qed.
