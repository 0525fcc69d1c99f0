(** Witnesses for Properties13.v. *)
From Verif Require Import Base Lib SpecBasic SpecEnv Utils Caibx MainProg Patchdd Tool SpecCaibx SpecMain SpecRun SpecLive SpecPatch SpecTool SpecTransfers Toy Ex1 Ex2 Ex4 Ex6 Ex7 Ex11.
Local Open Scope N_scope.

(** C63: the answers of a slow disk; a device that accepts nothing *)
Definition io_slow : list ioev := flat_map (fun _ => [IoIntr; IoN 0]) (seq 0 15) ++ [IoN 0].
Definition io_stuck : list ioev := [IoN 1000; IoN 1000; IoZero].
Lemma slow_meets : ~ In IoZero io_slow /\ src_of toy0 pd = Some 115%nat /\ (3 * length s5 + 1 <= settled io_slow)%nat.
Proof. split; [vm_compute; intuition discriminate|]. split; [reflexivity|]. apply Nat.leb_le. reflexivity. Qed.
Lemma slow_run : let r := patchdd_main toy0 pd (pd_world io_slow s5 (bs "XXXXXfg")) in (fst r, w_files (snd r) 116%nat, w_io (snd r)) = (Ok 0, bs "abcdefg", []).
Proof. vm_compute. reflexivity. Qed.
Lemma stuck_run : let r := patchdd_main toy0 pd (pd_world io_stuck s5 d7) in (fst r, w_files (snd r) 116%nat) = (Abort, d7).
Proof. vm_compute. reflexivity. Qed.
Lemma short_run : let w := pd_world (repeat (IoN 0) 15) s5 (bs "XXXXXfg") in fst (patchdd_main toy0 pd w) = Halt.
Proof. vm_compute. reflexivity. Qed.

(** C64: two chunks of three bytes, named on standard input *)
Definition hx (c : N) : bytes := repeat c 64.
Definition ck (c : N) : bytes := hx c ++ bs ".cacnk".
Definition t_fs : bytes -> option bytes := fun p => if beq p (ck 97) then Some [1; 2; 3] else if beq p (ck 98) then Some [4; 5; 6] else None.
Definition t_world (io : list ioev) : tworld := mkTW t_fs io [] (ck 97 ++ [10] ++ ck 98 ++ [10]) [] (fun _ => None).
Definition t_argv : list bytes := [bs "csn-tool"; bs "crypt"; bs "key:" ++ hx 48].
Definition t_io : list ioev := repeat (IoN 0) 900.
Lemma t_meets : ~ In IoZero t_io /\ (forall p d, t_fs p = Some d -> (length d <= 3)%nat) /\ (3 + 2 * 3 * S (length (tw_stdin (t_world t_io))) <= settled t_io)%nat.
Proof.
  split; [intros X; apply repeat_spec in X; discriminate|]. split; [|apply Nat.leb_le; vm_compute; reflexivity].
  intros p d. unfold t_fs. destruct (beq p (ck 97)); [intros [= <-]; cbn; lia|]. destruct (beq p (ck 98)); [intros [= <-]; cbn; lia|discriminate].
Qed.
Lemma t_run : let r := tool_main t_argv (t_world t_io) in (fst r, length (tw_io (snd r)), option_map (@length N) (tw_fs (snd r) (ck 98 ++ bs ".enc"))) = (Ok 0, 888%nat, Some 3%nat).
Proof. vm_compute. reflexivity. Qed.
Lemma t_stuck : fst (tool_main t_argv (t_world [IoN 5; IoZero])) = Abort.
Proof. vm_compute. reflexivity. Qed.

(** C65: two servers that cannot be reached, an index of one chunk: every transfer and every delay allowed for happens. *)
Definition argv13 : list bytes := argv11 [bs "http://h/x"; bs "http://g"].
Definition w13 : world := w11 [(80, id1)] [] [] big11.
Lemma dead13 : let r := main toy0 argv13 w13 in (fst r, performs (w_trace (snd r)), slept (w_trace (snd r))) = (Ok 1, 20, 105200000).
Proof. vm_compute. reflexivity. Qed.
Lemma room13 : (http_stores argv13, room toy0 argv13 w13) = (2, 1).
Proof. vm_compute. reflexivity. Qed.
