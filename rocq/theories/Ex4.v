(** Witnesses for Properties4.v. *)
From Coq Require Import Sorting.Permutation.
From Verif Require Import Base Lib SpecBasic SpecEnv Utils Discr Chunker Caibx Index StoreLocal SpecChunker SpecCaibx SpecStore
  PfUtils PfBasic PfIO PfCaibx PfCaibx2 PfIndex PfFrame PfLocal PfLocal2 Toy Ex1 Ex2.
Local Open Scope N_scope.

(** The store "s" holds [data_ex] (chunks of 80, 65 and 15 bytes), "i" is the side-loaded index. *)
Definition id1 : bytes := toyH (firstn 80 data_ex).
Definition id2 : bytes := toyH (slice 80 65 data_ex).
Definition id3 : bytes := toyH (skipn 145 data_ex).
Definition st_world (l : list (N * bytes)) : world :=
  toy_world [(115%nat, data_ex); (105%nat, index_file 0 p_ex l)] 400.
Definition zeros (n : nat) : bytes := repeat 0 n.

Lemma toyH_good d : good_id (toyH d).
Proof. exact (proj1 (toy_ok no_server open_char open_char (fun _ => KReg) (fun _ => None)) d). Qed.
Lemma data_ex_ok : bytes_ok data_ex.
Proof. apply Forall_map, Forall_forall. intros x _. assert (251 <> 0) as H by discriminate. pose proof (N.mod_lt (N.of_nat x * N.of_nat x * 7 + N.of_nat x) 251 H). lia. Qed.
Lemma st_world_ok l : Forall (fun e => good_id (snd e)) l -> (length l <= 5)%nat -> files_ok (st_world l).
Proof.
  intros H Hl i. unfold st_world, toy_world, files_of. cbn [w_files find fst].
  destruct (Nat.eqb_spec 115 i); [cbn [snd]; split; [exact data_ex_ok|vm_compute; reflexivity]|].
  destruct (Nat.eqb_spec 105 i); [cbn [snd]; split; [apply index_file_ok, H|]|split; [constructor|vm_compute; reflexivity]].
  unfold blen. rewrite index_file_length by exact H. unfold OFF_LIMIT. lia.
Qed.

(** The answers of a store without index, with a matching one, with a stale one. *)
Definition reqs_ex : list (bytes * bytes) := [(id2, zeros 300); (id3, zeros 300); (id2, zeros 300)].
Definition l_good : list (N * bytes) := [(80, id1); (145, id2); (160, id3)].
Definition l_stale : list (N * bytes) := [(80, id2); (145, id1); (160, id3)].
Definition answers_of (o : outcome (option (list (option N * bytes)))) : list (option N) :=
  match o with Ok (Some rs) => map fst rs | _ => [] end.
Lemma answers_ex :
  answers_of (fst (use_local toy0 (bs "s") None p_ex reqs_ex (st_world l_good))) = [Some 65; Some 15; Some 65] /\
  answers_of (fst (use_local toy0 (bs "s") (Some (bs "i")) p_ex reqs_ex (st_world l_good))) = [Some 65; Some 15; Some 65] /\
  answers_of (fst (use_local toy0 (bs "s") (Some (bs "i")) p_ex reqs_ex (st_world l_stale))) = [Some 65; Some 15; Some 65] /\
  scans (snd (use_local toy0 (bs "s") (Some (bs "i")) p_ex reqs_ex (st_world l_good))) = 0%nat /\
  scans (snd (use_local toy0 (bs "s") (Some (bs "i")) p_ex reqs_ex (st_world l_stale))) = 1%nat /\
  scans (snd (use_local toy0 (bs "s") None p_ex reqs_ex (st_world l_stale))) = 1%nat.
Proof. vm_compute. repeat split; reflexivity. Qed.
Lemma lists_ok : Forall (fun e => good_id (snd e)) l_good /\ Forall (fun e => good_id (snd e)) l_stale.
Proof. split; repeat (constructor; [apply toyH_good|]); constructor. Qed.

(** C24: indices that do not match and are not discarded. *)
Definition l_past : list (N * bytes) := [(250, id1)].
Definition l_long : list (N * bytes) := [(140, id1)].
Definition l_zero : list (N * bytes) := [(0, id1)].
Lemma sideload_refuted : exists E path ip p reqs w,
  env_ok E /\ files_ok w /\ error_free (w_io w) /\ w_alloc w = [] /\ good_params p /\
  answers_of (fst (use_local E path None p reqs w)) = [Some 80] /\
  answers_of (fst (use_local E path (Some ip) p reqs w)) = [None].
Proof.
  exists toy0, (bs "s"), (bs "i"), p_ex, [(id1, zeros 300)], (st_world l_past).
  split; [apply toy_ok|]. split; [apply st_world_ok; [repeat (constructor; [apply toyH_good|]); constructor|cbn; lia]|].
  split; [apply Forall_forall; intros x Hx; apply repeat_spec in Hx; now subst|]. split; [reflexivity|].
  split; [unfold good_params; cbn; split; [split|]; reflexivity|].
  split; vm_compute; reflexivity.
Qed.
Lemma sideload_long_refuted : exists E path ip p reqs w,
  env_ok E /\ files_ok w /\ error_free (w_io w) /\ w_alloc w = [] /\ good_params p /\
  answers_of (fst (use_local E path None p reqs w)) = [Some 80] /\
  answers_of (fst (use_local E path (Some ip) p reqs w)) = [None].
Proof.
  exists toy0, (bs "s"), (bs "i"), p_ex, [(id1, zeros 100)], (st_world l_long).
  split; [apply toy_ok|]. split; [apply st_world_ok; [repeat (constructor; [apply toyH_good|]); constructor|cbn; lia]|].
  split; [apply Forall_forall; intros x Hx; apply repeat_spec in Hx; now subst|]. split; [reflexivity|].
  split; [unfold good_params; cbn; split; [split|]; reflexivity|].
  split; vm_compute; reflexivity.
Qed.
Lemma sideload_zero_refuted : exists E path ip p reqs w,
  env_ok E /\ files_ok w /\ error_free (w_io w) /\ w_alloc w = [] /\ good_params p /\
  answers_of (fst (use_local E path None p reqs w)) = [Some 80] /\
  fst (use_local E path (Some ip) p reqs w) = Abort.
Proof.
  exists toy0, (bs "s"), (bs "i"), p_ex, [(id1, zeros 100)], (st_world l_zero).
  split; [apply toy_ok|]. split; [apply st_world_ok; [repeat (constructor; [apply toyH_good|]); constructor|cbn; lia]|].
  split; [apply Forall_forall; intros x Hx; apply repeat_spec in Hx; now subst|]. split; [reflexivity|].
  split; [unfold good_params; cbn; split; [split|]; reflexivity|].
  split; vm_compute; reflexivity.
Qed.

(** C24: a stale store meeting the hypotheses of the fallback theorem. *)
Definition new_store (l : list (N * bytes)) (ip : option bytes) : lstore * world :=
  match store_local_new toy0 (bs "s") ip p_ex (st_world l) with (Ok (Some ls), w) => (ls, w) | (_, w) => (mkLStore 0 index_zero p_ex, w) end.
Definition ls_stale : lstore := fst (new_store l_stale (Some (bs "i"))).
Definition w_stale : world := snd (new_store l_stale (Some (bs "i"))).
Lemma ls_stale_val : ls_stale = mkLStore 115 (mkIndex false 3 [mkEntry 0 80 0 id2; mkEntry 80 65 0 id1; mkEntry 145 15 0 id3] PLive) p_ex.
Proof. vm_compute. reflexivity. Qed.
Lemma w_stale_file : w_files w_stale 115%nat = data_ex. Proof. vm_compute. reflexivity. Qed.
Lemma w_stale_io : w_io w_stale = repeat (IoN 1000) 393 /\ w_alloc w_stale = [] /\ w_kcapi w_stale = false. Proof. vm_compute. repeat split. Qed.
Lemma stale_ex : ls_ok toy0 true (w_files w_stale (ls_ino ls_stale)) ls_stale /\ error_free (w_io w_stale) /\ ~ In false (w_alloc w_stale) /\
  (exists e, In e (ix_entries (ls_idx ls_stale)) /\ en_id e = id2) /\
  (forall e, In e (ix_entries (ls_idx ls_stale)) -> en_id e = id2 -> en_start e + en_len e <= blen (w_files w_stale (ls_ino ls_stale)) /\
     en_len e <= blen (zeros 300) /\ ~ validated e /\ en_len e <> 0 /\
     e_H toy0 (slice_N (en_start e) (en_len e) (w_files w_stale (ls_ino ls_stale))) <> id2) /\
  fst (fst (match fst (store_local_get_chunk toy0 ls_stale id2 (zeros 300) w_stale) with Ok r => r | _ => (None, [], ls_stale) end)) = Some 65.
Proof.
  rewrite ls_stale_val. destruct w_stale_io as (Hio & Hal & _). rewrite Hio, Hal. cbn [ls_ino ls_idx ix_entries]. rewrite w_stale_file.
  split; [|split; [|split; [auto|split; [|split]]]].
  - split.
    + split; [reflexivity|]. split; [vm_compute; discriminate|discriminate].
    + cbn [ls_idx ix_entries]. intros e [<-|[<-|[<-|[]]]] V; destruct V; reflexivity.
  - apply Forall_forall; intros x Hx; apply repeat_spec in Hx; now subst.
  - exists (mkEntry 0 80 0 id2). split; [now left|reflexivity].
  - intros e [<-|[<-|[<-|[]]]] Hi; cbn [en_id en_start en_len] in *.
    + split; [vm_compute; discriminate|]. split; [vm_compute; discriminate|]. split; [intros V; apply V; reflexivity|]. split; [discriminate|].
      vm_compute. discriminate.
    + exfalso. revert Hi. vm_compute. discriminate.
    + exfalso. revert Hi. vm_compute. discriminate.
  - rewrite <- ls_stale_val. vm_compute. reflexivity.
Qed.

(** C26: the store changes after it was scanned. *)
Definition flipped : bytes := map (fun b => (255 - b)) data_ex.
Definition change_file (i : nat) (d : bytes) (w : world) : world := set_files (upd_file (w_files w) i d) w.
Lemma bit_rot_refuted : exists E path p w0 ls w1 f' id out r out' ls' w2,
  env_ok E /\ files_ok w0 /\ bytes_ok f' /\ length f' = length (w_files w1 (ls_ino ls)) /\
  store_local_new E path None p w0 = (Ok (Some ls), w1) /\
  store_local_get_chunk E ls id out (change_file (ls_ino ls) f' w1) = (Ok (Some r, out', ls'), w2) /\
  0 < r /\ e_H E (firstn (N.to_nat r) out') <> id.
Proof.
  set (c := new_store l_good None).
  set (res := store_local_get_chunk toy0 (fst c) id1 (zeros 100) (change_file 115 flipped (snd c))).
  exists toy0, (bs "s"), p_ex, (st_world l_good), (fst c), (snd c), flipped, id1, (zeros 100), 80.
  exists (match res with (Ok (_, o, _), _) => o | _ => [] end), (match res with (Ok (_, _, l), _) => l | _ => fst c end), (snd res).
  split; [apply toy_ok|]. split; [apply st_world_ok; [apply lists_ok|cbn; lia]|].
  split.
  { apply Forall_map, Forall_forall. intros x Hx. pose proof data_ex_ok as K. unfold bytes_ok in K. rewrite Forall_forall in K. specialize (K x Hx). lia. }
  split; [vm_compute; reflexivity|]. split.
  { assert (G : match fst (store_local_new toy0 (bs "s") None p_ex (st_world l_good)) with Ok (Some _) => True | _ => False end) by (vm_compute; exact I).
    subst res c. unfold new_store. destruct (store_local_new toy0 (bs "s") None p_ex (st_world l_good)) as [[[ls|]| | |] w]; try contradiction. reflexivity. }
  split.
  { assert (G : match fst res with Ok (r, _, _) => r | _ => None end = Some 80) by (vm_compute; reflexivity).
    assert (Hi : ls_ino (fst c) = 115%nat) by (vm_compute; reflexivity). rewrite Hi. fold res. clear Hi. clearbody res.
    destruct res as [[[[r o] l]| | |] w]; cbn [fst snd] in *; try discriminate G. subst r. reflexivity. }
  split; [reflexivity|]. vm_compute. discriminate.
Qed.

(** C27 *)
Lemma small_ex : fst (store_local_new toy0 (bs "s") None (mkParams 16384 65536 262144) (toy_world [(115%nat, zeros 1000)] 50)) = Abort.
Proof. vm_compute. reflexivity. Qed.
