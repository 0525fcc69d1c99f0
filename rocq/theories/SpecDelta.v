(** What a local store holds, and who is asked for which chunks (C81). *)
From Coq Require Import Sorting.Sorted.
From Verif Require Import Base Chunker Caibx MainProg SpecBasic SpecEnv SpecChunker SpecCaibx SpecMain SpecRun SpecProgress.
Local Open Scope N_scope.

(** The store argument [arg] names a local file that holds the chunk with the hash [id]; [cp] are the chunk sizes of
    the index of the run.  Without an index of its own the file is cut into chunks by casync's chunking; all of them
    fit the buffer of main.c.  With an index, the index has the same chunk sizes and describes the file correctly. *)
Inductive seeded (E : env) (w : world) (tp : bytes) (cp : params) (arg : bytes) : bytes -> Prop :=
| seed_scan path ino D c : classify_arg tp arg = ArgLocal path None -> e_open E path = Some ino ->
    disc_of cp D -> p_max cp <= BUF_SIZE -> In c (chunks cp D (w_files w ino)) -> seeded E w tp cp arg (e_H E c)
| seed_index path ip ino iino p n i : classify_arg tp arg = ArgLocal path (Some ip) -> e_open E path = Some ino ->
    e_open E ip = Some iino -> e_kind E iino <> KOther -> valid_index (w_files w iino) p n ->
    p_min p = p_min cp -> p_avg p = p_avg cp -> p_max p = p_max cp ->
    usual_chunks (w_files w iino) (N.to_nat n) ->
    in_place (e_H E) (w_files w iino) (N.to_nat n) (w_files w ino) ->
    (i < N.to_nat n)%nat -> seeded E w tp cp arg (ent_id (w_files w iino) i).

(** The chunks store [j] was asked for, in the order of the trace (newest first). *)
Definition asked_of (j : nat) (tr : list tev) : list bytes :=
  flat_map (fun ev => match ev with TQuery i id => if Nat.eqb i j then [id] else [] | _ => [] end) tr.

(** Store [j] was asked only for entries of the index [f] that satisfy [P], at most once for each and in their order. *)
Definition asked_for (f : bytes) (n : nat) (P : nat -> Prop) (j : nat) (tr : list tev) : Prop :=
  exists l, rev (asked_of j tr) = map (ent_id f) l /\ StronglySorted lt l /\ Forall (fun i => (i < n)%nat /\ P i) l.
