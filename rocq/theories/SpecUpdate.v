(** Indices as casync makes them for an image, and updates from one image to another (C90). *)
From Verif Require Import Base SpecBasic Utils Chunker Caibx MainProg SpecEnv SpecChunker SpecCaibx SpecHttp SpecMain SpecRun SpecAvail SpecDelta SpecSupply.
Local Open Scope N_scope.

(** The table of an image given in pieces: end offset and hash of each. *)
Fixpoint toc (E : env) (off : N) (pieces : list bytes) : list (N * bytes) :=
  match pieces with [] => [] | P :: r => (off + blen P, e_H E P) :: toc E (off + blen P) r end.
(** The index of [image] with chunk sizes [p] and discriminator [D]. *)
Definition casync_index (E : env) (flags : N) (p : params) (D : N) (image : bytes) : bytes :=
  index_file flags p (toc E 0 (chunks p D image)).

(** An update: csn with the index of [new], a file with the image [old] as one of its stores (without an index, so that
    it is scanned) and a server after it, which has at least the chunks of [new] that are not in [old]. *)
Record update_run (E : env) (argv : list bytes) (w : world) (flags : N) (p : params) (D : N) (old new : bytes) (tino j : nat) : Prop := mkUpdate {
  up_sane : sane E argv w; up_csn : is_csn argv = true; up_args : (4 <= length argv)%nat;
  up_driver : e_getenv E (bs "CSN_KCAPI_DRIVER") = None; up_kcapi : w_kcapi w = false; up_http : e_http_ok E = true;
  up_flags : known_flags flags; up_params : good_params p; up_disc : disc_of p D; up_max : p_max p <= BUF_SIZE;
  (* the index *)
  up_index : exists ino, e_open E (cmd_index argv) = Some ino /\ w_files w ino = casync_index E flags p D new /\ e_kind E ino <> KOther;
  up_size : blen new <= OFF_LIMIT; up_new : new <> [];
  (* the target *)
  up_target : e_open_rw E (cmd_target argv) = Some tino; up_room : has_room E w tino (blen new);
  (* the stores *)
  up_stores : Forall (usable E w (cmd_target argv) p) (cmd_stores argv);
  up_old : exists k arg path ino, (k < j)%nat /\ nth_error (cmd_stores argv) k = Some arg /\ classify_arg (cmd_target argv) arg = ArgLocal path None /\
     e_open E path = Some ino /\ w_files w ino = old;
  up_server : exists url, nth_error (cmd_stores argv) j = Some url /\ classify_arg (cmd_target argv) url = ArgHttp url /\
     forall base key c, store_denotes E w url base key -> In c (chunks p D new) ->
       has_chunk E base key c \/ In c (chunks p D old) /\ lacks_chunk E base key (e_H E c);
  (* no failures of the system *)
  up_alloc : w_alloc w = []; up_io : error_free (w_io w);
  up_transfers : (start_cost E argv w + enough (length (chunks p D new)) (length (cmd_stores argv)) <= transfers (w_io w))%nat }.
