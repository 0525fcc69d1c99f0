(** Local stores whose file has been damaged since its index was made, and runs that find part of the image in the
    target already (C94). *)
From Verif Require Import Base Utils Chunker Caibx MainProg SpecBasic SpecEnv SpecChunker SpecCaibx SpecHttp SpecMain SpecRun SpecAvail SpecProgress SpecDelta SpecSupply SpecResume SpecUpdate.
Local Open Scope N_scope.

(** The store argument [arg] names a local file and an index for it; nothing is said about whether the index describes
    the file, except that the parts it lists lie within the file.  The file is large enough to be scanned. *)
Record mendable (E : env) (w : world) (tp : bytes) (cp : params) (arg path ip : bytes) (ino iino : nat) (n : N) : Prop := mkMendable {
  md_arg : classify_arg tp arg = ArgLocal path (Some ip);
  md_open : e_open E path = Some ino; md_kind : e_kind E ino <> KOther;
  md_index : e_open E ip = Some iino; md_ikind : e_kind E iino <> KOther;
  md_valid : exists p, valid_index (w_files w iino) p n /\ p_min p = p_min cp /\ p_avg p = p_avg cp /\ p_max p = p_max cp;
  md_usual : usual_chunks (w_files w iino) (N.to_nat n); md_some : 0 < n;
  md_within : forall i, (i < N.to_nat n)%nat -> ent_end (w_files w iino) i <= blen (w_files w ino);
  md_scan : 5 * p_avg cp <= 6 * blen (w_files w ino); md_size : blen (w_files w ino) < 2 ^ 60; md_max : p_max cp <= BUF_SIZE }.

(** The chunk with the hash [id] can be had from [arg]: its index lists it, and a scan of the file as it is finds it. *)
Definition salvaged (E : env) (w : world) (tp : bytes) (cp : params) (arg id : bytes) : Prop :=
  exists path ip ino iino n D i c, mendable E w tp cp arg path ip ino iino n /\ disc_of cp D /\
    (i < N.to_nat n)%nat /\ ent_id (w_files w iino) i = id /\ In c (chunks cp D (w_files w ino)) /\ e_H E c = id.

Definition offers (E : env) (w : world) (tp : bytes) (cp : params) (pieces : list bytes) (arg P : bytes) : Prop :=
  supplies E w tp cp pieces arg P \/ salvaged E w tp cp arg (e_H E P).
Definition openable (E : env) (w : world) (tp : bytes) (cp : params) (arg : bytes) : Prop :=
  usable E w tp cp arg \/ exists path ip ino iino n, mendable E w tp cp arg path ip ino iino n.

(** Transfers that one request to one of the stores takes at most: a read, the hash of what was read, a scan of the
    file, another read. *)
Definition file_size (E : env) (w : world) (tp arg : bytes) : nat :=
  match classify_arg tp arg with ArgLocal path _ => size_at E w path | _ => 0%nat end.
Definition request_cost (E : env) (argv : list bytes) (w : world) : N :=
  3 * BUF_SIZE + 2 + N.of_nat (list_max (map (file_size E w (cmd_target argv)) (cmd_stores argv))).

(** csn with an index that lists the nonempty chunks [pieces]; the first [k] of them are in the target already; every
    other one is offered by one of the stores; all stores can be opened. *)
Record offered_run (E : env) (argv : list bytes) (w : world) (pieces : list bytes) (k : nat) (p : params) (tino : nat) : Prop := mkOffered {
  of_sane : sane E argv w; of_described : described E argv w pieces; of_some : pieces <> [];
  of_sizes : forall P, In P pieces -> 0 < blen P <= BUF_SIZE;
  of_csn : is_csn argv = true; of_args : (4 <= length argv)%nat;
  of_driver : e_getenv E (bs "CSN_KCAPI_DRIVER") = None; of_kcapi : w_kcapi w = false; of_http : e_http_ok E = true;
  of_index : exists ino n, e_open E (cmd_index argv) = Some ino /\ valid_index (w_files w ino) p n /\ e_kind E ino <> KOther;
  of_target : e_open_rw E (cmd_target argv) = Some tino; of_room : has_room E w tino (blen (concat pieces));
  of_begun : begun_with (w_files w tino) (firstn k pieces);
  of_stores : Forall (openable E w (cmd_target argv) p) (cmd_stores argv);
  of_rest : forall P, In P (skipn k pieces) -> exists arg, In arg (cmd_stores argv) /\ offers E w (cmd_target argv) p (skipn k pieces) arg P;
  of_alloc : w_alloc w = []; of_io : error_free (w_io w);
  of_transfers : (start_cost E argv w + enough_at (request_cost E argv w) (length pieces) (length (cmd_stores argv)) <= transfers (w_io w))%nat }.

(** An update with a damaged image: csn with the index of [new]; the first [k] chunks of [new] are in the target
    already; a file [bad] with the index of [old] is one of its stores; a server has at least those of the other chunks
    that cannot be had from the file. *)
Record repair_run (E : env) (argv : list bytes) (w : world) (flags : N) (p : params) (D : N) (old bad new : bytes) (k tino : nat) : Prop := mkRepair {
  rp_sane : sane E argv w; rp_csn : is_csn argv = true; rp_args : (4 <= length argv)%nat;
  rp_driver : e_getenv E (bs "CSN_KCAPI_DRIVER") = None; rp_kcapi : w_kcapi w = false; rp_http : e_http_ok E = true;
  rp_flags : known_flags flags; rp_params : good_params p; rp_disc : disc_of p D; rp_max : p_max p <= BUF_SIZE;
  (* the index *)
  rp_index : exists ino, e_open E (cmd_index argv) = Some ino /\ w_files w ino = casync_index E flags p D new /\ e_kind E ino <> KOther;
  rp_size : blen new <= OFF_LIMIT; rp_new : new <> [];
  (* the target *)
  rp_target : e_open_rw E (cmd_target argv) = Some tino; rp_room : has_room E w tino (blen new);
  rp_begun : begun_with (w_files w tino) (firstn k (chunks p D new));
  (* the stores *)
  rp_stores : Forall (openable E w (cmd_target argv) p) (cmd_stores argv);
  rp_old : exists arg path ip ino iino, In arg (cmd_stores argv) /\ classify_arg (cmd_target argv) arg = ArgLocal path (Some ip) /\
     e_open E path = Some ino /\ w_files w ino = bad /\ e_kind E ino <> KOther /\
     e_open E ip = Some iino /\ w_files w iino = casync_index E flags p D old /\ e_kind E iino <> KOther;
  rp_some : old <> []; rp_bad : blen old <= blen bad; rp_large : 5 * p_avg p <= 6 * blen bad; rp_limit : blen bad < 2 ^ 60;
  rp_server : exists url, In url (cmd_stores argv) /\ classify_arg (cmd_target argv) url = ArgHttp url /\
     forall base key c, store_denotes E w url base key -> In c (skipn k (chunks p D new)) ->
       has_chunk E base key c \/ (In c (chunks p D old) /\ In c (chunks p D bad)) /\ lacks_chunk E base key (e_H E c);
  (* no failures of the system *)
  rp_alloc : w_alloc w = []; rp_io : error_free (w_io w);
  rp_transfers : (start_cost E argv w + enough_at (request_cost E argv w) (length (chunks p D new)) (length (cmd_stores argv)) <= transfers (w_io w))%nat }.
