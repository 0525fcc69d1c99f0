(** What a synchronisation has to achieve, said in terms of the index file and the target. *)
From Verif Require Import Base SpecBasic SpecStore SpecCaibx Chunker Utils.
Local Open Scope N_scope.

(** Start and size of entry [i]. *)
Definition ent_start (f : bytes) (i : nat) : N := match i with O => 0 | S j => ent_end f j end.
Definition ent_size (f : bytes) (i : nat) : N := ent_end f i - ent_start f i.

(** A well-formed list of entries: end offsets do not decrease, chunks are below 4 GiB, and if an id
    is listed twice in a row then with the same length. *)
Definition well_formed (f : bytes) (n : nat) : Prop :=
  forall i, (i < n)%nat -> ent_start f i <= ent_end f i /\ ent_size f i < 2 ^ 32 /\
    ((S i < n)%nat -> ent_id f i = ent_id f (S i) -> ent_size f i = ent_size f (S i)).

(** The target [g] holds what entry [i] lists. *)
Definition holds (E : env) (b : bool) (f : bytes) (i : nat) (g : bytes) : Prop :=
  ent_end f i <= blen g /\ (0 < ent_size f i -> hashes E b (slice (N.to_nat (ent_start f i)) (N.to_nat (ent_size f i)) g) (ent_id f i)).
(** The first [i] entries are held; what comes after them is as in [g0]. *)
Definition held (E : env) (b : bool) (f g0 : bytes) (i : nat) (g : bytes) : Prop :=
  ent_start f i <= blen g /\ skipn (N.to_nat (ent_start f i)) g = skipn (N.to_nat (ent_start f i)) g0 /\
  forall j, (j < i)%nat -> holds E b f j g.
(** A beginning of such a target, followed by the old contents. *)
Definition touched (E : env) (b : bool) (f g0 : bytes) (n : nat) (g : bytes) : Prop :=
  exists i g' m, (i <= n)%nat /\ held E b f g0 i g' /\ (m <= N.to_nat (ent_start f i))%nat /\
    g = firstn m g' ++ skipn m g0.
