(** The memory of two runs, for C85. *)
From Verif Require Import Base Lib SpecBasic SpecEnv Utils Chunker Caibx Index StoreHttp Chain MainProg SpecCaibx SpecStore SpecHttp SpecMain SpecRun SpecHeap
  PfBasic PfKeyspec PfCaibx PfCaibx2 Toy Ex1 Ex2 Ex4 Ex5 Ex6 Ex9 Ex19.
Local Open Scope N_scope.

Lemma within9 : responses_within E9 6.
Proof.
  intros u k. cbn [E9 mirror toy_env e_server]. unfold srv9. destruct (Nat.eqb _ _); [|vm_compute; discriminate]. destruct (parse_hex _); [|vm_compute; discriminate].
  destruct (find _ pieces9) as [P|] eqn:F; [|vm_compute; discriminate]. apply find_some in F as (F & _). cbn [p_segs]. destruct F as [<-|[<-|[<-|[]]]]; vm_compute; discriminate.
Qed.
Definition bytes_of (r : outcome (option mstate)) : option N := match r with Ok (Some st) => Some (heap_bytes st) | _ => None end.
Lemma heap19 : bytes_of (fst (state_after E9 argv19 3 (w19 60))) = Some 102. Proof. vm_compute. reflexivity. Qed.
Lemma heap9 : bytes_of (fst (state_after E9 argv9 3 (w9 60))) = Some 150. Proof. vm_compute. reflexivity. Qed.
Lemma bound19 : ENTRY_SIZE * 3 + sum_of (map (arg_bytes E9 (w19 60) (cmd_target argv19) p_ex 6) (cmd_stores argv19)) = 306. Proof. vm_compute. reflexivity. Qed.
Lemma bound9 : ENTRY_SIZE * 3 + sum_of (map (arg_bytes E9 (w9 60) (cmd_target argv9) p_ex 6) (cmd_stores argv9)) = 210. Proof. vm_compute. reflexivity. Qed.
Lemma met85 : sane E9 argv19 (w19 60) /\ sane E9 argv9 (w9 60) /\ responses_within E9 6.
Proof. split; [apply sane19|]. split; [apply sane9|exact within9]. Qed.
