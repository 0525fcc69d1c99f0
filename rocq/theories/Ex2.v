(** Witnesses for Properties2.v: counterexamples and cases meeting the hypotheses. *)
From Verif Require Import Base Lib SpecBasic SpecEnv Utils Discr Chunker SpecChunker PfChunker PfScan PfChunkProps Toy Ex1.
Local Open Scope N_scope.

(** Small parameters and 160 bytes of data with irregular chunks. *)
Definition p_ex : params := mkParams 50 60 80.
Definition data_ex : bytes := map (fun i => (N.of_nat i * N.of_nat i * 7 + N.of_nat i) mod 251) (seq 0 160).
Lemma disc_ex : disc_of p_ex 45.
Proof. split; [vm_compute; reflexivity|lia]. Qed.

Lemma p_ex_max : p_max p_ex <= UINT32_MAX.
Proof. cbn. unfold UINT32_MAX. lia. Qed.

(** The expected lengths: one chunk ended by the maximum, one by the hash, a rest. *)
Definition lens (log : list (N * N * bytes)) : list N := map (fun t => snd (fst t)) log.
Lemma lens_tiles E l : forall off, lens (tiles E off l) = map blen l.
Proof. induction l as [|c l IH]; intros off; cbn; [reflexivity|]. f_equal. apply IH. Qed.
Definition ok_lens (o : outcome (list (N * N * bytes))) : list N := match o with Ok l => lens l | _ => [] end.
Lemma lens_of E p D d w l : disc_of p D -> p_max p <= UINT32_MAX ->
  ok_lens (fst (scan_pieces E p [d] w)) = l -> map blen (chunks p D d) = l.
Proof.
  intros Hd Hm <-. rewrite (scan_pieces_spec E p D [d] w Hd Hm). cbn [concat fst ok_lens].
  now rewrite app_nil_r, lens_tiles.
Qed.
Lemma chunks_ex : map blen (chunks p_ex 45 data_ex) = [80; 65; 15].
Proof.
  apply (lens_of toy0 p_ex 45 data_ex (io_world [] []) _ disc_ex); [cbn; unfold UINT32_MAX; lia|]. vm_compute. reflexivity.
Qed.

(** Segmentations of the same data that cut inside the window, at a boundary, and contain an empty piece. *)
Definition pieces_ex : list bytes := [firstn 10 data_ex; []; slice 10 70 data_ex; skipn 80 data_ex].
Lemma pieces_ex_ok : concat pieces_ex = data_ex /\ pieces_ex <> [data_ex].
Proof. split; [vm_compute; reflexivity|discriminate]. Qed.

Definition sched_ex : list ioev := IoN 99 :: IoIntr :: repeat (IoN 0) 70 ++ repeat (IoN 300) 100.
Lemma sched_ex_ok : error_free (w_io (io_world data_ex sched_ex)) /\
  (length (w_files (io_world data_ex sched_ex) 0%nat) < transfers (w_io (io_world data_ex sched_ex)))%nat.
Proof.
  split.
  - unfold error_free, sched_ex. cbn [w_io io_world]. apply Forall_cons; [exact I|]. apply Forall_cons; [exact I|].
    apply Forall_app. split; apply Forall_forall; intros x H; apply repeat_spec in H; subst x; exact I.
  - vm_compute. lia.
Qed.

(** A state reached in the middle of the second chunk. *)
Definition c0_ex : chunker := Eval vm_compute in match chunker_init p_ex with Ok c => c | _ => mkChunker p_ex 0 0 0 0 [] [] end.
Definition c1_ex : chunker := Eval vm_compute in match chunker_scan c0_ex data_ex with Ok (_, c) => c | _ => c0_ex end.
Definition c2_ex : chunker := Eval vm_compute in match chunker_scan (chunker_reset c1_ex) (slice 80 60 data_ex) with Ok (_, c) => c | _ => c0_ex end.
Lemma c0_ex_ok : chunker_init p_ex = Ok c0_ex. Proof. vm_compute. reflexivity. Qed.
Lemma c1_ex_ok : chunker_scan c0_ex data_ex = Ok (Some 80%nat, c1_ex). Proof. vm_compute. reflexivity. Qed.
Lemma c2_ex_ok : chunker_scan (chunker_reset c1_ex) (slice 80 60 data_ex) = Ok (None, c2_ex). Proof. vm_compute. reflexivity. Qed.
Lemma reached_ex : reached p_ex c2_ex (slice 80 60 data_ex) /\ (48 <= length (slice 80 60 data_ex))%nat.
Proof.
  split; [|vm_compute; lia].
  exact (reached_more _ _ [] _ _ (reached_reset _ _ _ (reached_cut _ _ _ _ _ _ (reached_init _ _ c0_ex_ok) c1_ex_ok)) c2_ex_ok).
Qed.

(** A boundary at the end of the first chunk. *)
Lemma boundary_ex : boundary_at_end p_ex 45 (firstn 80 data_ex) /\ firstn 80 data_ex <> [].
Proof.
  split; [|discriminate]. right. exists [], (firstn 80 data_ex).
  assert (C : cut_here p_ex 45 (firstn 80 data_ex) = true) by (vm_compute; reflexivity).
  split; [|split; [vm_compute; lia|exact C]].
  pose proof chunks_ex as H. destruct (chunks p_ex 45 data_ex) as [|c l] eqn:E; [discriminate|].
  destruct (first_cut p_ex 45 data_ex) as [n|] eqn:F.
  - rewrite (chunks_step _ _ _ _ F) in E. injection E as <- <-. cbn [map] in H.
    assert (Hn : n = 80%nat).
    { assert (blen (firstn n data_ex) = 80) by congruence. apply first_cut_some in F. destruct F as (L & _).
      unfold blen in H0. rewrite firstn_length_le in H0 by lia. lia. }
    subst n. pose proof (first_cut_firstn _ _ _ _ F) as F'.
    rewrite (chunks_step _ _ _ _ F'). rewrite firstn_firstn. cbn [Nat.min].
    replace (skipn 80 (firstn 80 data_ex)) with (@nil N) by (rewrite skipn_firstn_comm; reflexivity). rewrite chunks_nil. reflexivity.
  - assert (Hne : data_ex <> []) by (intros Q; apply (f_equal (@length N)) in Q; vm_compute in Q; discriminate Q).
    rewrite (chunks_last _ _ _ Hne F) in E. injection E as <- <-. cbn [map] in H. discriminate H.
Qed.

Definition buf48 : bytes := repeat 0 48.
Lemma disc_refuted_small : exists p c, chunker_params_set 0 1 100 = Some p /\ discriminator_from_avg (p_avg p) = Some 0 /\
  chunker_init p = Ok c /\ chunker_scan c buf48 = UB.
Proof.
  eexists. eexists. split; [reflexivity|]. split; [vm_compute; reflexivity|]. split; [vm_compute; reflexivity|]. vm_compute. reflexivity.
Qed.
Lemma disc_refuted_large : exists p, chunker_params_set 1 9324557 9324558 = Some p /\ chunker_init p = UB.
Proof. eexists. split; [reflexivity|]. vm_compute. reflexivity. Qed.
