(** Properties C53 and C54: absence of undefined behaviour, termination.  Statements only. *)
From Verif Require Import Base Lib SpecBasic SpecEnv Utils SpecCaibx SpecStore SpecMain SpecRun SpecMemory SpecLive Caibx StoreLocal Chain MainProg PfFrame PfMemory PfLive3 Toy Ex2 Ex6 Ex10.
Local Open Scope N_scope.

(** ** C53: whatever the index, the stores, the server and the operating system answer, no out-of-bounds access,
    use after free, double free or undefined arithmetic occurs, provided the index is well-formed and no special file
    is given an index of its own.  [sane] includes the documented limits: no "-h", no aliasing, a usable average chunk size. *)
Theorem C53_no_undefined E argv w : sane E argv w -> good_index E argv w -> special_free E (cmd_target argv) (cmd_stores argv) ->
  fst (main E argv w) <> UB.
Proof. exact (no_undefined E argv w). Qed.
Print Assumptions C53_no_undefined.

Example C53_met : let E := E10 (fun _ => KReg) in let w := w10 (big 400) in
  sane E argv10 w /\ good_index E argv10 w /\ special_free E (cmd_target argv10) (cmd_stores argv10).
Proof. exact (conj (sane10 _ _) (conj (good10 _ _) special10)). Qed.

(** Without the last condition it fails: the index of a store that could not be scanned again is freed twice. *)
Theorem C53_double_free_refuted : exists E argv w, sane E argv w /\ good_index E argv w /\ error_free (w_io w) /\ w_alloc w = [] /\ fst (main E argv w) = UB.
Proof. exact double_free_fine. Qed.
Print Assumptions C53_double_free_refuted.
Example C53_device : let r := main (E10 kind10) argv10 (w10 (big 400)) in (fst r, w_files (snd r) 116%nat) = (UB, c1 ++ c2).
Proof. exact double_free. Qed.
Example C53_regular : let r := main (E10 (fun _ => KReg)) argv10 (w10 (big 400)) in (fst r, w_files (snd r) 116%nat) = (Ok 0, c1 ++ c2).
Proof. exact no_double_free. Qed.

(** ** C54: csn and casync end.  For every set of files there is a number of answers (transfers, ends of file, errors,
    in any order and of any size, with any number of interruptions between them) after which no run is still going. *)
Theorem C54_terminates E argv F : env_ok E -> e_getenv E (bs "CSN_KCAPI_DRIVER") = None ->
  exists B, forall w, (forall i, w_files w i = F i) -> w_kcapi w = false -> (B <= settled (w_io w))%nat -> fst (main E argv w) <> Halt.
Proof. exact (terminates_soft E argv F). Qed.
Print Assumptions C54_terminates.

(** With the kernel's hash in use, its answers are counted as well. *)
Theorem C54_terminates_kernel E argv F : env_ok E ->
  exists B, forall w, (forall i, w_files w i = F i) -> (B <= settled (w_io w))%nat -> (B <= ksettled (w_kev w))%nat -> fst (main E argv w) <> Halt.
Proof. exact (terminates_any E argv F). Qed.
Print Assumptions C54_terminates_kernel.

(** A run that has not ended is waiting for an answer: it never goes round in circles. *)
Theorem C54_waiting E argv w : env_ok E -> fst (main E argv w) = Halt -> w_io (snd (main E argv w)) = [] \/ w_kev (snd (main E argv w)) = [].
Proof. exact (halts_waiting E argv w). Qed.
Print Assumptions C54_waiting.

Example C54_interrupted : let r := main (E10 (fun _ => KReg)) argv10 (w10 (intr 400)) in (fst r, w_files (snd r) 116%nat, settled (intr 400)) = (Ok 0, c1 ++ c2, 400%nat).
Proof. exact intr_run. Qed.
Example C54_short : let r := main (E10 (fun _ => KReg)) argv10 (w10 (intr 20)) in (fst r, w_io (snd r)) = (Halt, []).
Proof. exact short_run. Qed.
(** Interruptions alone do not let a run end. *)
Example C54_only_interrupted : let r := main (E10 (fun _ => KReg)) argv10 (w10 (repeat IoIntr 1000)) in (fst r, w_io (snd r), settled (repeat IoIntr 1000)) = (Halt, [], 0%nat).
Proof. exact intr_only. Qed.
Example C54_met : env_ok (E10 (fun _ => KReg)) /\ e_getenv (E10 (fun _ => KReg)) (bs "CSN_KCAPI_DRIVER") = None /\ w_kcapi (w10 (intr 400)) = false.
Proof. exact (conj (toy_ok _ _ _ _ _) (conj eq_refl eq_refl)). Qed.
