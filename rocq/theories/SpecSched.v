(** What two runs have in common that differ only in how the operating system cuts their transfers
    into pieces (C87). *)
From Verif Require Import Base SpecBasic SpecCaibx SpecRun.
Local Open Scope N_scope.

(** The trace without the single transfers: the requests and answers of the chain, the transfers
    over the network, the pauses, the scans, the calls of target_write and the progress shown. *)
Definition calls (tr : list tev) : list tev :=
  filter (fun t => match t with TWrite _ _ _ => false | _ => true end) tr.
Definition same_effects (w1 w2 : world) : Prop :=
  (forall i, w_files w1 i = w_files w2 i) /\ calls (w_trace w1) = calls (w_trace w2) /\ w_nperf w1 = w_nperf w2 /\
  w_alloc w1 = w_alloc w2 /\ w_kcapi w1 = w_kcapi w2 /\ w_kev w1 = w_kev w2.

(** No entry of the index lies within 4 GiB of the largest file offset. *)
Definition modest (f : bytes) : Prop :=
  bytes_ok f /\ forall i, (104 + 40 * i <= length f)%nat -> ent_end f i + 2 ^ 32 <= 2 ^ 63.
Definition modest_run (E : env) (argv : list bytes) (w : world) : Prop :=
  forall ino, e_open E (cmd_index argv) = Some ino -> modest (w_files w ino).
(** The index is not the target. *)
Definition index_apart (E : env) (argv : list bytes) : Prop :=
  forall ino, e_open_rw E (cmd_target argv) = Some ino -> e_open E (cmd_index argv) <> Some ino.
