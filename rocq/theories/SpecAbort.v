(** Setting in which no assertion fails (C55). *)
From Verif Require Import Base Utils SpecCaibx SpecMain SpecRun MainProg Chunker Caibx.
Local Open Scope N_scope.

(** An index with at least one entry, none of which is empty or larger than 4 GiB. *)
Definition filled (f : bytes) (n : nat) : Prop :=
  n <> O /\ forall i, (i < n)%nat -> ent_start f i < ent_end f i /\ ent_end f i - ent_start f i < 2 ^ 32.

Record unproblematic (E : env) (argv : list bytes) (w : world) : Prop := mkUnproblematic {
  (** no write (and no read before the end of the file) transfers zero bytes *)
  up_io : ~ In IoZero (w_io w);
  (** if the target is also a store, the index is not empty and has no empty chunks *)
  up_target : forall ino p n, In (cmd_target argv) (cmd_stores argv) -> e_open E (cmd_index argv) = Some ino -> valid_index (w_files w ino) p n ->
     filled (w_files w ino) (N.to_nat n);
  (** no local store is much smaller than a chunk; sizes times twelve do not overflow *)
  up_store : forall ino p n arg path s, e_open E (cmd_index argv) = Some ino -> valid_index (w_files w ino) p n -> In arg (cmd_stores argv) ->
     local_path (cmd_target argv) arg path -> e_open E path = Some s -> 5 * p_avg p <= 6 * blen (w_files w s) /\ 12 * blen (w_files w s) < 2 ^ 64;
  (** the indices of local stores are not empty and have no empty chunks *)
  up_side : forall arg path ip s p n, In arg (cmd_stores argv) -> classify_arg (cmd_target argv) arg = ArgLocal path (Some ip) -> e_open E ip = Some s ->
     valid_index (w_files w s) p n -> filled (w_files w s) (N.to_nat n) }.
