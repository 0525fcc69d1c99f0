(** Property C55: assertions.  Statements only. *)
From Verif Require Import Base Lib SpecBasic SpecEnv Utils SpecCaibx SpecStore SpecMain SpecRun SpecAbort MainProg PfIO PfAbort2 Toy Ex2 Ex4 Ex6 Ex11.
Local Open Scope N_scope.

(** A run in which no index in use is empty or has empty chunks and no local store is tiny passes all assertions,
    whatever fails besides. *)
Theorem C55_no_abort E argv w : sane E argv w -> unproblematic E argv w -> fst (main E argv w) <> Abort.
Proof. exact (no_abort E argv w). Qed.
Print Assumptions C55_no_abort.

Example C55_met : sane toy0 (argv11 args11) (w11 l11 l11 d11 big11) /\ unproblematic toy0 (argv11 args11) (w11 l11 l11 d11 big11).
Proof. exact (conj sane11 unproblematic11). Qed.
Example C55_run : let r := main toy0 (argv11 args11) (w11 l11 l11 d11 big11) in (fst r, w_files (snd r) 116%nat) = (Ok 0, c1 ++ c2).
Proof. exact run11. Qed.

(** Each of the conditions is needed: valid indices and healthy files that make the program abort. *)
Theorem C55_empty_index_refuted : exists args w, aborts args w /\ In (bs "t") args /\ valid_index (w_files w 105%nat) Ex2.p_ex 0.
Proof. exact (ex_intro _ _ (ex_intro _ _ (conj empty_index_aborts (conj (or_introl eq_refl) (index_valid [] ltac:(constructor) ltac:(apply Nat.leb_le; reflexivity)))))). Qed.
Print Assumptions C55_empty_index_refuted.
Theorem C55_empty_chunk_refuted : exists l lj d, aborts [bs "t"; bs "s"] (w11 l lj d big11) /\ l = [(0, toyH []); (80, id1)].
Proof. exact (ex_intro _ _ (ex_intro _ _ (ex_intro _ _ (conj empty_chunk_aborts eq_refl)))). Qed.
Print Assumptions C55_empty_chunk_refuted.
Theorem C55_small_store_refuted : exists l lj d, aborts [bs "s"; bs "d"] (w11 l lj d big11) /\ l = l11 /\ blen d = 20.
Proof. exact (ex_intro _ _ (ex_intro _ _ (ex_intro _ _ (conj small_store_aborts (conj eq_refl eq_refl))))). Qed.
Print Assumptions C55_small_store_refuted.
Theorem C55_side_index_refuted : exists l lj d, aborts [bs "s"; bs "d:j"] (w11 l lj d big11) /\ l = l11 /\ lj = [].
Proof. exact (ex_intro _ _ (ex_intro _ _ (ex_intro _ _ (conj side_empty_aborts (conj eq_refl eq_refl))))). Qed.
Print Assumptions C55_side_index_refuted.
Theorem C55_side_chunk_refuted : exists l lj d, aborts [bs "s"; bs "d:j"] (w11 l lj d big11) /\ l = l11 /\ lj = l_zero.
Proof. exact (ex_intro _ _ (ex_intro _ _ (ex_intro _ _ (conj side_chunk_aborts (conj eq_refl eq_refl))))). Qed.
Print Assumptions C55_side_chunk_refuted.
