(** When every chunk of an image can be obtained from one of the stores (C05, C86). *)
From Verif Require Import Base Chunker SpecBasic SpecMain SpecRun MainProg SpecAvail SpecDelta.
Local Open Scope N_scope.

(** The store argument [arg] supplies the piece [P] of the image: a local file that holds it, or a server that has
    it and says of every other piece either that it has it or that it does not. *)
Inductive supplies (E : env) (w : world) (tp : bytes) (cp : params) (pieces : list bytes) (arg P : bytes) : Prop :=
| sup_local : seeded E w tp cp arg (e_H E P) -> supplies E w tp cp pieces arg P
| sup_http : classify_arg tp arg = ArgHttp arg ->
    (forall base key, store_denotes E w arg base key -> has_chunk E base key P /\
       forall P', In P' pieces -> has_chunk E base key P' \/ lacks_chunk E base key (e_H E P')) ->
    supplies E w tp cp pieces arg P.

(** The store argument [arg] can be opened: the target itself, a server, a local file that is large enough to be
    scanned, or a local file with an index that describes it. *)
Inductive usable (E : env) (w : world) (tp : bytes) (cp : params) (arg : bytes) : Prop :=
| us_remote : remote tp arg -> usable E w tp cp arg
| us_scan path ino : classify_arg tp arg = ArgLocal path None -> e_open E path = Some ino -> e_kind E ino <> KOther ->
    5 * p_avg cp <= 6 * blen (w_files w ino) -> blen (w_files w ino) < 2 ^ 60 -> usable E w tp cp arg
| us_index path ip id : classify_arg tp arg = ArgLocal path (Some ip) -> seeded E w tp cp arg id -> usable E w tp cp arg.

(** An upper bound on the transfers spent on opening [arg]. *)
Definition size_at (E : env) (w : world) (path : bytes) : nat :=
  match e_open E path with Some ino => length (w_files w ino) | None => 0%nat end.
Definition open_cost (E : env) (w : world) (tp arg : bytes) : nat :=
  match classify_arg tp arg with
  | ArgLocal path None => (105 + size_at E w path)%nat
  | ArgLocal path (Some ip) => (105 + size_at E w ip * 40 + size_at E w path)%nat
  | _ => 0%nat
  end.
(** The transfers spent before the first chunk: the header of the index, and the stores. *)
Definition start_cost (E : env) (argv : list bytes) (w : world) : nat := (104 + list_sum (map (open_cost E w (cmd_target argv)) (cmd_stores argv)))%nat.
