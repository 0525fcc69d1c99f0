(** Properties C88 (the bytes after the image) and C89 (servers that cannot be used).  Statements only. *)
From Verif Require Import Base Lib SpecBasic SpecHttp SpecCaibx SpecMain SpecRun SpecTransfers SpecDown MainProg PfTail PfDown Toy Ex2 Ex4 Ex6 Ex9 Ex25.
Local Open Scope N_scope.

(** ** C88: after success the target is the image followed by what the target held beyond the image's size, up to collisions
    of the hash function. *)
Theorem C88_exact E argv w w' pieces : sane E argv w -> described E argv w pieces -> main E argv w = (Ok 0, w') ->
  exists iino tino p n, e_open E (cmd_index argv) = Some iino /\ e_open_rw E (cmd_target argv) = Some tino /\ valid_index (w_files w iino) p n /\
    (w_files w' tino = concat pieces ++ skipn (length (concat pieces)) (w_files w tino) \/
     collision E pieces (fun y => exists i, (i < N.to_nat n)%nat /\ end_piece y (ent_slice (w_files w iino) i (w_files w' tino))) \/
     exists tr, run_trace w w' tr /\ collision E pieces (fun y => exists o D, In (TPut tino o D) tr /\ end_piece y D)).
Proof. exact (exact_target E argv w w' pieces). Qed.
Print Assumptions C88_exact.
(** It need not be the image: a regular file is not truncated. *)
Theorem C88_refuted : exists E argv w w' pieces tino, sane E argv w /\ described E argv w pieces /\ e_open_rw E (cmd_target argv) = Some tino /\ main E argv w = (Ok 0, w') /\
  firstn (length (concat pieces)) (w_files w' tino) = concat pieces /\ w_files w' tino <> concat pieces.
Proof. exact tail25. Qed.
Print Assumptions C88_refuted.
Example C88_meets n : sane E9 argv9 (w25 n) /\ described E9 argv9 (w25 n) pieces9.
Proof. exact (conj (sane25 n) (described25 n)). Qed.
Example C88_run : let r := main E9 argv9 (w25 60) in (fst r, w_files (snd r) 116%nat) = (Ok 0, concat pieces9 ++ [5; 4; 3; 2; 1]).
Proof. exact run25. Qed.

(** ** C89: while no server can be reached, or they only report errors, a run starts at most 110 transfers and sleeps at most
    578.6 seconds for each server it was given, however many chunks the image has. *)
Theorem C89_given_up E argv w : down E ->
  exists tr, run_trace w (snd (main E argv w)) tr /\ performs tr <= 110 * http_stores argv /\ slept tr <= 578600000 * http_stores argv.
Proof. exact (down_bounded E argv w). Qed.
Print Assumptions C89_given_up.
Example C89_meets : down toy0 /\ down E_503.
Proof. exact (conj down0 down503). Qed.
(** The bound is reached (twelve chunks, all of them in an older image named after the server). *)
Example C89_run : let r := main toy0 argv89 w89 in (fst r, w_files (snd r) 116%nat, performs (w_trace (snd r)), slept (w_trace (snd r)), http_stores argv89) = (Ok 0, bytes25, 110, 578600000, 1).
Proof. exact run89. Qed.
Example C89_run_503 : let r := main E_503 argv89 w89 in (fst r, w_files (snd r) 116%nat, performs (w_trace (snd r)), slept (w_trace (snd r))) = (Ok 0, bytes25, 11, 0).
Proof. exact run503. Qed.
(** A server that answers 404 is not given up. *)
Example C89_run_404 : let r := main E_404 argv89 w89 in (fst r, w_files (snd r) 116%nat, performs (w_trace (snd r)), slept (w_trace (snd r))) = (Ok 0, bytes25, 12, 0).
Proof. exact run404. Qed.
