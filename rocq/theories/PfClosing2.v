(** What patchdd prints after a successful run (C100). *)
From Verif Require Import Base Lib Patchdd SpecRun SpecPatch Bench SpecBench SpecClosing Closing PfPatch PfClosing PfShare.
Local Open Scope N_scope.

Lemma patchdd_closing E argv w w' t0 t1 : patchdd_main E argv w = (Ok 0, w') -> clock_ok t0 -> clock_ok t1 -> not_before t0 t1 -> (tv_sec t1 - tv_sec t0 < 4294967296)%Z ->
  exists src dst, src_of E argv = Some src /\ dst_of E argv = Some dst /\ let s := w_files w src in let d := w_files w dst in
    (0 < blen s < 9223372036854775808 -> exists sk h n, patchdd_run E argv w = (Ok (0, Some (sk, blen s)), w') /\
      patchdd_lines t0 t1 sk (blen s) = patchdd_text n sk h /\ about n t0 t1 /\ kept s d 0 sk /\ (sk = blen s <-> firstn (length s) d = s) /\ share_of sk (blen s) h).
Proof.
  intros H C0 C1 B Hd. destruct (patchdd_skipped E argv w w' H) as (src & dst & sk & A1 & A2 & A3 & A4 & A5 & A6). exists src, dst. split; [exact A1|]. split; [exact A2|]. cbv zeta in *.
  intros (P1 & P2). destruct (share_text sk _ A5 P1 P2) as (h & X1 & X2 & X3). exists sk, h, (seconds_between t0 t1). split; [exact A3|]. split; [unfold patchdd_lines, patchdd_text; now rewrite X1|].
  split; [now apply seconds_about|]. split; [exact A4|]. split; [exact A6|]. now split.
Qed.
