(** Command lines of the two programs and the setting in which a run takes place. *)
From Verif Require Import Base SpecBasic SpecEnv Utils SpecChunker SpecStore SpecHttp SpecCaibx SpecMain Chunker Caibx StoreHttp Chain MainProg PfKeyspec.
Local Open Scope N_scope.

Definition is_csn (argv : list bytes) : bool := beq (basename (nth 0 argv [])) (bs "csn").
(** csn INDEX TARGET STORE...; casync ... INDEX TARGET with stores given by options *)
Definition cmd_index (argv : list bytes) : bytes := if is_csn argv then nth 1 argv [] else nth (length argv - 2) argv [].
Definition cmd_target (argv : list bytes) : bytes := if is_csn argv then nth 2 argv [] else nth (length argv - 1) argv [].
Definition store_opts (os : list optres) : list bytes := flat_map (fun o => match o with OptStore a => [a] | _ => [] end) os.
Definition cmd_stores (argv : list bytes) : list bytes :=
  if is_csn argv then skipn 3 argv else store_opts (fst (getopt_all (skipn 1 argv))).
Definition local_path (tp arg path : bytes) : Prop := exists ip, classify_arg tp arg = ArgLocal path ip.

(** The kernel hash interface is off or does not fail. *)
Definition hash_reliable (E : env) (w : world) : Prop :=
  e_getenv E (bs "CSN_KCAPI_DRIVER") = None /\ w_kcapi w = false \/ kernel_ok (w_kev w).

(** What is assumed of a run: the libraries keep their contracts, arguments are C strings, neither the
    index nor a local store is the target under another name, and the average chunk size of the index
    has a discriminator if a local store is used (C19). *)
Record sane (E : env) (argv : list bytes) (w : world) : Prop := mkSane {
  sa_env : env_ok E; sa_server : server_ok E; sa_getenv : env_strings E; sa_files : files_ok w;
  sa_args : Forall no_nul (cmd_stores argv);
  sa_help : is_csn argv = false -> ~ In OptHelp (fst (getopt_all (skipn 1 argv)));
  sa_index : forall ino, e_open_rw E (cmd_target argv) = Some ino -> e_open E (cmd_index argv) <> Some ino;
  sa_alias : forall ino arg path, e_open_rw E (cmd_target argv) = Some ino -> In arg (cmd_stores argv) ->
     local_path (cmd_target argv) arg path -> e_open E path <> Some ino;
  sa_disc : forall ino p n arg path, e_open E (cmd_index argv) = Some ino -> valid_index (w_files w ino) p n ->
     In arg (cmd_stores argv) -> local_path (cmd_target argv) arg path -> exists D, disc_of p D }.
(** The index listed on the command line is well-formed. *)
Definition good_index (E : env) (argv : list bytes) (w : world) : Prop :=
  forall ino p n, e_open E (cmd_index argv) = Some ino -> valid_index (w_files w ino) p n -> well_formed (w_files w ino) (N.to_nat n).

(** The index lists the pieces of an image: consecutive end offsets, the hash of each piece. *)
Definition describes (E : env) (f : bytes) (n : nat) (pieces : list bytes) : Prop :=
  length pieces = n /\
  forall i P, nth_error pieces i = Some P -> ent_end f i = ent_start f i + blen P /\ blen P < 2 ^ 32 /\ ent_id f i = e_H E P.
Definition described (E : env) (argv : list bytes) (w : world) (pieces : list bytes) : Prop :=
  forall ino p n, e_open E (cmd_index argv) = Some ino -> valid_index (w_files w ino) p n -> describes E (w_files w ino) (N.to_nat n) pieces.

(** Two different strings with the same hash: a piece [x] of the image and [y], which is another
    piece or is known by [K] to have occurred in the run. *)
Definition collision (E : env) (pieces : list bytes) (K : bytes -> Prop) : Prop :=
  exists x y, In x pieces /\ x <> y /\ e_H E x = e_H E y /\ (In y pieces \/ K y).

(** The part of the target that entry [i] describes. *)
Definition ent_slice (f : bytes) (i : nat) (g : bytes) : bytes := slice (N.to_nat (ent_start f i)) (N.to_nat (ent_size f i)) g.

(** The first part of [main] (main.c:283-301): interpreting the command line. *)
Definition init (E : env) (argv : list bytes) : M init_res :=
  if beq (basename (nth 0 argv [])) (bs "csn") then csn E argv
  else if beq (basename (nth 0 argv [])) (bs "casync") then casync E argv else ret (InitExit 1).

(** Setting up as [main] does, processing the first [k] entries, then asking the target for a chunk. *)
Definition sync_then_ask (E : env) (argv : list bytes) (k : nat) (id out : bytes) : M (option (option N * bytes)) :=
  r <- init E argv ;;
  match r with
  | InitOk su =>
      '(ok, st) <- iterate_loop (entry_cb E (su_n su)) (su_index su) (su_params su) (su_n su) (Nat.min k (N.to_nat (su_n su))) 0 0 (initial_mstate su) ;;
      if negb (ok : bool) then ret None else
      '(r, out', _) <- Target.target_get_chunk E (m_target st) id out ;; ret (Some (r, out'))
  | _ => ret None
  end.

(** Files outside the target are unchanged and the trace shows writes to the target only, no flush. *)
Definition only_target (E : env) (argv : list bytes) (w w' : world) : Prop :=
  (forall i, e_open_rw E (cmd_target argv) <> Some i -> w_files w' i = w_files w i) /\
  exists tr, w_trace w' = tr ++ w_trace w /\ Forall (fun ev => match ev with TWrite i _ _ | TPut i _ _ => e_open_rw E (cmd_target argv) = Some i | TSync _ => False | _ => True end) tr.

(** The trace of a run. *)
Definition run_trace (w w' : world) (tr : list tev) : Prop := w_trace w' = tr ++ w_trace w.

(** The first [k] entries are already in the target [g] (and short enough to be checked). *)
Definition prefix_present (E : env) (f : bytes) (k : nat) (g : bytes) : Prop :=
  forall j, (j < k)%nat -> ent_size f j <= BUF_SIZE /\ ent_end f j <= blen g /\ e_H E (ent_slice f j g) = ent_id f j.

(** ** Power cuts (C47)
    [survives ino tr g g']: file [ino] held [g] on stable storage, then the events [tr] (oldest first)
    happened and the power was cut; the file may then hold [g'].  Every transfer that was not
    followed by a flush may be lost. *)
Inductive survives (ino : nat) : list tev -> bytes -> bytes -> Prop :=
| sv_nil g : survives ino [] g g
| sv_keep o d tr g g' : survives ino tr (file_write g (N.to_nat o) d) g' -> survives ino (TWrite ino o d :: tr) g g'
| sv_lose o d tr g g' : ~ In (TSync ino) tr -> survives ino tr g g' -> survives ino (TWrite ino o d :: tr) g g'
| sv_other ev tr g g' : (forall o d, ev <> TWrite ino o d) -> survives ino tr g g' -> survives ino (ev :: tr) g g'.
