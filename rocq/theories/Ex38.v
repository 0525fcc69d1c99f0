(** An index with a chunk of one byte more than 256 KiB (C104). *)
From Verif Require Import Base Lib Utils Caibx Chunker MainProg SpecBasic SpecEnv SpecStore SpecCaibx SpecMain SpecRun SpecOrder SpecSource SpecGen SpecBig PfCaibx PfUtils Toy Ex1 Ex2 Ex4 Ex6.
Local Open Scope N_scope.

Definition l38 : list (N * bytes) := [(65, id2); (262210, id1); (262225, id3)].
Definition f38 : bytes := index_file 0 p_ex l38.
Lemma l38_ok : Forall (fun e => good_id (snd e)) l38. Proof. good_ids. Qed.
Lemma wf38 : well_formed f38 (length l38).
Proof.
  intros i Hi. change (length l38) with 3%nat in *. destruct i as [|[|[|i]]]; [..|lia].
  all: split; [vm_compute; discriminate|]; split; [vm_compute; reflexivity|]; intros _ He; exfalso; vm_compute in He; discriminate He.
Qed.
Lemma meets38 : let w := run_world l38 [] in
  sane toy0 csn_s w /\ good_index toy0 csn_s w /\ the_index toy0 csn_s w f38 3 /\ ent_size f38 1 = largest + 1 /\ ent_start f38 1 = 65.
Proof.
  cbv zeta. split; [apply toy_sane; [exact l38_ok|cbn; lia|constructor|reflexivity|constructor; [now right|constructor]]|].
  split; [apply toy_good; [exact l38_ok|cbn; lia|exact wf38]|]. split; [|split; vm_compute; reflexivity].
  exists 105%nat, p_ex. split; [reflexivity|]. split; [reflexivity|]. exact (index_valid l38 l38_ok ltac:(cbn; lia)).
Qed.
Lemma default38 : p_max p_default = largest. Proof. reflexivity. Qed.
Lemma cut38 : p_max p_default <= largest /\ p_max p_ex <= largest. Proof. split; vm_compute; discriminate. Qed.
