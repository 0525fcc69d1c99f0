(** Witnesses for Properties3.v. *)
From Verif Require Import Base Lib SpecBasic SpecEnv Utils Chunker Caibx Index SpecCaibx SpecIndex PfUtils PfIO PfCaibx PfCaibx2 PfIndex Toy Ex1.
Local Open Scope N_scope.

Definition p_ix : params := mkParams 16384 65536 262144.
Definition l_ix : list (N * bytes) := [(70000, repeat 1 32); (70000, repeat 2 32); (170000, repeat 255 32)].
Definition f_ix : bytes := index_file 0x9000000000000000 p_ix l_ix.
Lemma f_ix_ok : known_flags 0x9000000000000000 /\ good_params p_ix /\ Forall (fun e => good_id (snd e)) l_ix /\
  ascending 0 l_ix /\ blen f_ix < OFF_LIMIT /\ valid_index f_ix p_ix 3 /\ bytes_ok f_ix.
Proof.
  assert (A : known_flags 0x9000000000000000) by (exists true, false, true; reflexivity).
  assert (B : good_params p_ix) by (unfold good_params; cbn; split; [split|]; reflexivity).
  assert (C : Forall (fun e => good_id (snd e)) l_ix).
  { repeat (constructor; [split; [reflexivity|apply Forall_forall; intros x Hx; apply repeat_spec in Hx; cbn [snd] in Hx; rewrite Hx; reflexivity]|]). constructor. }
  split; [exact A|]. split; [exact B|]. split; [exact C|].
  split; [vm_compute; repeat split; congruence|]. split; [vm_compute; reflexivity|].
  split; [apply (index_file_valid _ p_ix l_ix A B C); reflexivity|apply (index_file_ok _ p_ix l_ix C)].
Qed.
Lemma round_trip_ex :
  let w := io_world f_ix (IoIntr :: repeat (IoN 6) 230) in
  error_free (w_io w) /\ (104 + 40 * length l_ix <= transfers (w_io w))%nat /\
  fst ((h <- caibx_load_header toy0 0%nat ;; match h with Some (p, n) => '(ok, l) <- caibx_iterate_entries record_entry 0 p n [] ;; ret (Some (p, n, ok, l)) | None => ret None end) w) =
  Ok (Some (p_ix, 3, true, [(0, 70000, repeat 1 32); (70000, 0, repeat 2 32); (70000, 100000, repeat 255 32)])).
Proof.
  split; [|split; [vm_compute; lia|vm_compute; reflexivity]].
  constructor; [reflexivity|]. apply Forall_forall. intros x Hx. apply repeat_spec in Hx. now subst.
Qed.
(** All entries of [f_ix] end after byte 0. *)
Lemma f_ix_ends : forall i, (i < N.to_nat 3)%nat -> ent_end f_ix i <> 0.
Proof. intros i Hi. change (N.to_nat 3) with 3%nat in Hi. destruct i as [|[|[|i]]]; [vm_compute; discriminate..|lia]. Qed.

(** An entry that looks like a footer. *)
Definition l_fake : list (N * bytes) := [(0, le64 0 ++ le64 48 ++ le64 56 ++ le64 0x4b4f050e5549ecd1)].
Lemma prefix_refuted : exists f p n k p' n',
  bytes_ok f /\ valid_index f p n /\ (k < length f)%nat /\ valid_index (firstn k f) p' n'.
Proof.
  exists (index_file 0 p_ix l_fake), p_ix, 1, 104%nat, p_ix, 0.
  destruct f_ix_ok as (_ & B & _).
  assert (A : known_flags 0) by (exists false, false, false; reflexivity).
  assert (C : Forall (fun e => good_id (snd e)) l_fake).
  { constructor; [|constructor]. split; [reflexivity|]. cbn [snd].
    repeat (apply Forall_app; split); apply le64_ok. }
  split; [apply index_file_ok, C|]. split; [apply (index_file_valid 0 p_ix l_fake A B C); reflexivity|].
  split; [vm_compute; lia|].
  replace (firstn 104 (index_file 0 p_ix l_fake)) with (index_file 0 p_ix []) by (vm_compute; reflexivity).
  apply (index_file_valid 0 p_ix [] A B); [constructor|reflexivity].
Qed.

Definition ops_ix : list iop :=
  [OpQuery [5]; OpInsert 10 3 [5]; OpInsert 20 4 [9]; OpQuery [5]; OpInsert 30 5 [5]; OpInsert 40 6 [7]; OpQuery [7]; OpQuery [8]].
Lemma ops_ix_ex : lens_positive ops_ix /\
  fst (use_index toy0 1 ops_ix (mkWorld (fun _ => []) [] [true; true; true; false] false [] 0 [])) =
  Ok (Some [None; Some (mkEntry 10 3 0 [5]); Some (mkEntry 20 4 0 [9]); Some (mkEntry 10 3 0 [5]); Some (mkEntry 30 5 0 [5]); None; None; None]).
Proof. split; [|vm_compute; reflexivity]. unfold lens_positive, ops_ix. repeat (constructor; [first [discriminate|exact I]|]). constructor. Qed.
