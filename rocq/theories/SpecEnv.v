(** Contracts of the libraries the code relies on.  Nothing else is assumed about them. *)
From Coq Require Import Sorting.Permutation Sorting.Sorted.
From Verif Require Import Base.

(** SHA-256 yields 32 bytes. *)
Definition hash_ok (E : env) : Prop := forall d, length (e_H E d) = 32 /\ bytes_ok (e_H E d).

(** qsort by id: a permutation in ascending order (C17 7.22.5.2). *)
Definition ids_sorted (l : list entry) : Prop :=
  StronglySorted (fun a b => id_leb (en_id a) (en_id b) = true) l.
Definition qsort_ok (E : env) : Prop :=
  forall l, Permutation l (e_qsort E l) /\ ids_sorted (e_qsort E l).

(** bsearch (C17 7.22.5.1): on a sorted array, some matching element if there is one. *)
Definition bsearch_ok (E : env) : Prop :=
  forall l id, ids_sorted l ->
    match e_bsearch E l id with
    | Some i => exists e, nth_error l i = Some e /\ en_id e = id
    | None => forall e, In e l -> en_id e <> id
    end.

(** ZSTD_decompressStream stays inside the buffers it is given; it may produce anything. *)
Definition zstd_ok (E : env) : Prop :=
  forall hist inp room c p, e_zstep E hist inp room = Some (c, p) -> c <= length inp /\ length p <= room.

Definition env_ok (E : env) : Prop := hash_ok E /\ qsort_ok E /\ bsearch_ok E /\ zstd_ok E.
