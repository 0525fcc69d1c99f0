(** Progress over a sequence of runs that are interrupted (C75) and runs on a finished target (C76). *)
From Verif Require Import Base SpecMain SpecRun SpecCaibx SpecEnv SpecBasic MainProg.
Local Open Scope N_scope.

(** Chunks handed to the target, their bytes, and requests sent to store [s], according to a trace. *)
Definition put_ev (ev : tev) : N := match ev with TPut _ _ _ => 1 | _ => 0 end.
Definition put_bytes_ev (ev : tev) : N := match ev with TPut _ _ d => blen d | _ => 0 end.
Definition ask_ev (s : nat) (ev : tev) : N := match ev with TQuery i _ => if Nat.eqb i s then 1 else 0 | _ => 0 end.
Fixpoint total (c : tev -> N) (tr : list tev) : N := match tr with [] => 0 | ev :: r => c ev + total c r end.

(** The first [k] chunks of the index [f] are in place in [g]. *)
Definition in_place (h : bytes -> bytes) (f : bytes) (k : nat) (g : bytes) : Prop :=
  forall j, (j < k)%nat -> ent_size f j <= BUF_SIZE /\ ent_end f j <= blen g /\ h (ent_slice f j g) = ent_id f j.

(** A sequence of runs towards one image: all use the index file [f], and each finds in the target what its
    predecessor left there.  The command lines, stores, servers, keys, names and other files may differ from
    run to run.  A run may stop anywhere (its schedules of I/O and of the kernel may be exhausted at any
    point), fail (for instance because the index or the target cannot be opened this time), or succeed.
    [restarts h f g trs stops g']: the runs take the target from [g] to [g'], they show the traces [trs],
    and [stops] of them did not succeed. *)
Definition succeeded (o : outcome N) : bool := match o with Ok c => c =? 0 | _ => false end.
Inductive restarts (h : bytes -> bytes) (f : bytes) : bytes -> list (list tev) -> N -> bytes -> Prop :=
| at_none g : restarts h f g [] 0 g
| at_run E argv w t tr trs stops g' :
    e_H E = h -> sane E argv w -> hash_reliable E w -> error_free (w_io w) ->
    (forall i, e_open E (cmd_index argv) = Some i -> w_files w i = f) ->
    (forall i, e_open_rw E (cmd_target argv) = Some i -> i = t) ->
    run_trace w (snd (main E argv w)) tr ->
    restarts h f (w_files (snd (main E argv w)) t) trs stops g' ->
    restarts h f (w_files w t) (tr :: trs) ((if succeeded (fst (main E argv w)) then 0 else 1) + stops) g'.

(** Every chunk of the index is nonempty and fits the buffer of main.c. *)
Definition usual_chunks (f : bytes) (n : nat) : Prop := forall i, (i < n)%nat -> 0 < ent_size f i <= BUF_SIZE.

(** Only the start of a run is seen: scans of local stores and the progress display. *)
Definition still_ev (ev : tev) : Prop := match ev with TScan _ | TProgress _ => True | _ => False end.
(** Something that a run needs is missing (C78): the index, an index that is one, the target, or a local store. *)
Definition unstartable (E : env) (argv : list bytes) (w : world) : Prop :=
  e_open E (cmd_index argv) = None \/
  (exists ino, e_open E (cmd_index argv) = Some ino /\ forall p n, ~ valid_index (w_files w ino) p n) \/
  e_open_rw E (cmd_target argv) = None \/
  (exists arg path, In arg (cmd_stores argv) /\ local_path (cmd_target argv) arg path /\ e_open E path = None).
