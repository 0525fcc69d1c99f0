(** Targets longer than the image, for C88, and servers that cannot be used, for C89. *)
From Verif Require Import Base Lib SpecBasic SpecEnv Utils Discr Chunker Caibx StoreHttp Chain MainProg SpecChunker SpecCaibx SpecStore SpecHttp SpecMain SpecRun SpecTransfers SpecDown
  PfBasic PfCaibx PfCaibx2 Toy Ex1 Ex2 Ex4 Ex5 Ex6 Ex8 Ex9.
Local Open Scope N_scope.

(** C88: the target has 22 bytes, the image 17. *)
Definition t25 : bytes := pb ++ [0; 0; 0; 0; 0; 0; 0; 0; 0; 0; 0; 0; 5; 4; 3; 2; 1].
Definition w25 (n : nat) : world := toy_world [(105%nat, index_file 0 p_ex l9); (116%nat, t25)] n.
Lemma files25 n : files_ok (w25 n).
Proof.
  intros i. unfold w25, toy_world, files_of. cbn [w_files find fst].
  destruct (Nat.eqb_spec 105 i); [cbn [snd]; split; [apply index_file_ok, l9_ok|]; unfold blen; rewrite index_file_length by exact l9_ok; vm_compute; reflexivity|].
  destruct (Nat.eqb_spec 116 i); [cbn [snd]; split; [apply small_bytes|]; vm_compute; reflexivity|]. split; [constructor|vm_compute; reflexivity].
Qed.
Lemma sane25 n : sane E9 argv9 (w25 n).
Proof.
  destruct (sane9 n) as [S1 S2 S3 S4 S5 S6 S7 S8 S9]. constructor; [exact S1|exact S2|exact S3|apply files25|exact S5|exact S6|exact S7|exact S8|].
  intros ino p k arg path X HV [<-|[<-|[]]] (ip & HA); vm_compute in HA; discriminate HA.
Qed.
Lemma described25 n : described E9 argv9 (w25 n) pieces9.
Proof. intros ino p k X HV. assert (ino = 105%nat) as -> by (vm_compute in X; congruence). exact (described9 n 105%nat p k eq_refl HV). Qed.
Lemma run25 : let r := main E9 argv9 (w25 60) in (fst r, w_files (snd r) 116%nat) = (Ok 0, concat pieces9 ++ [5; 4; 3; 2; 1]).
Proof. vm_compute. reflexivity. Qed.
Lemma tail25 : exists E argv w w' pieces tino, sane E argv w /\ described E argv w pieces /\ e_open_rw E (cmd_target argv) = Some tino /\ main E argv w = (Ok 0, w') /\
  firstn (length (concat pieces)) (w_files w' tino) = concat pieces /\ w_files w' tino <> concat pieces.
Proof.
  pose proof run25 as R. cbv zeta in R. exists E9, argv9, (w25 60), (snd (main E9 argv9 (w25 60))), pieces9, 116%nat. split; [apply sane25|]. split; [apply described25|]. split; [reflexivity|].
  destruct (main E9 argv9 (w25 60)) as [o w']. cbn [fst snd] in *. injection R as -> ->. split; [reflexivity|]. split; [vm_compute; reflexivity|]. vm_compute. discriminate.
Qed.

(** C89: no connection; an error page. *)
Definition E_503 : env := toy_env (fun _ _ => mkPerf (Some 503) [bs "sorry"] CURLE_OK) open_char open_char (fun _ => KReg) (fun _ => None).
Lemma down0 : down toy0.
Proof. intros url k. left. split; [reflexivity|left; reflexivity]. Qed.
Lemma down503 : down E_503.
Proof. intros url k. right. cbn. lia. Qed.
(** csn i t http://h/x a:i: the old image "a" is the new one, twelve chunks of a byte each. *)
Definition bytes25 : list N := [1; 2; 3; 4; 5; 6; 7; 8; 9; 10; 11; 12].
Definition w89 : world := toy_world [(105%nat, index_file 0 p_ex (map (fun k => (k, toyH [k])) bytes25)); (97%nat, bytes25); (116%nat, [])] 200.
Definition argv89 : list bytes := [bs "csn"; bs "i"; bs "t"; site; bs "a:i"].
(** The bound is reached; the run succeeds nevertheless. *)
Lemma run89 : let r := main toy0 argv89 w89 in (fst r, w_files (snd r) 116%nat, performs (w_trace (snd r)), slept (w_trace (snd r)), http_stores argv89) = (Ok 0, bytes25, 110, 578600000, 1).
Proof. vm_compute. reflexivity. Qed.
Lemma run503 : let r := main E_503 argv89 w89 in (fst r, w_files (snd r) 116%nat, performs (w_trace (snd r)), slept (w_trace (snd r))) = (Ok 0, bytes25, 11, 0).
Proof. vm_compute. reflexivity. Qed.
(** A server that has nothing is asked for all twelve chunks. *)
Definition E_404 : env := toy_env (fun _ _ => mkPerf (Some 404) [bs "sorry"] CURLE_OK) open_char open_char (fun _ => KReg) (fun _ => None).
Lemma run404 : let r := main E_404 argv89 w89 in (fst r, w_files (snd r) 116%nat, performs (w_trace (snd r)), slept (w_trace (snd r))) = (Ok 0, bytes25, 12, 0).
Proof. vm_compute. reflexivity. Qed.
