(** When the chunks of an image can be obtained (C05). *)
From Verif Require Import Base SpecBasic SpecCrypto SpecHttp Utils StoreHttp Chain MainProg SpecRun PfKeyspec.
Local Open Scope N_scope.

(** The base URL and the key that a store argument URL[#PARAMS] stands for. *)
Definition store_denotes (E : env) (w : world) (arg base : bytes) (key : option bytes) : Prop :=
  exists url params, ((arg = url /\ params = [] /\ ~ In 35 arg) \/ (arg = url ++ [35] ++ params /\ ~ In 35 params)) /\
    url_base url base /\ params_key (key_text E w) params None key.
(** The server at [base] has the chunk [P]: some body of at most 256 GiB that decompresses to it (encrypted
    if there is a key).  From any transfer on, it delivers that body after at most nine transient failures. *)
Definition has_chunk (E : env) (base : bytes) (key : option bytes) (P : bytes) : Prop :=
  exists body, decodes E body P /\ blen body <= 2 ^ 38 /\
    forall url, casync_url base (e_H E P) url (match key with Some _ => true | None => false end) ->
    forall m, exists q, (q < 10)%nat /\ (forall i, (i < q)%nat -> fails_early E url (m + i)) /\
      serves E url (m + q) (on_the_wire key (e_H E P) body).
(** The server at [base] answers that it does not have the chunk [id] (404 or 410, with any body), again after at
    most nine transient failures. *)
Definition lacks_chunk (E : env) (base : bytes) (key : option bytes) (id : bytes) : Prop :=
  forall url, casync_url base id url (match key with Some _ => true | None => false end) ->
  forall m, exists q, (q < 10)%nat /\ (forall i, (i < q)%nat -> fails_early E url (m + i)) /\
    let p := e_server E url (m + q) in (p_code p = Some 404 \/ p_code p = Some 410) /\ p_end p = CURLE_OK.

(** The target can take an image of [len] bytes. *)
Definition has_room (E : env) (w : world) (ino : nat) (len : N) : Prop :=
  len <= OFF_LIMIT /\ match e_kind E ino with KReg => True | KBlk => len <= blen (w_files w ino) | KOther => False end.

(** In the trace (newest event first) store [i] answered a request for [id] with [k] bytes. *)
Definition quiet_ev (ev : tev) : Prop := match ev with TQuery _ _ | TAnswer _ _ => False | _ => True end.
Definition answered_with (tr : list tev) (i : nat) (id : bytes) (k : N) : Prop :=
  exists a b c, tr = a ++ TAnswer i (Some k) :: b ++ TQuery i id :: c /\ Forall quiet_ev b.
(** A store answered with a string that has the hash of a piece of the image but another length. *)
Definition false_answer (E : env) (pieces : list bytes) (tr : list tev) : Prop :=
  exists P y i, In P pieces /\ e_H E y = e_H E P /\ blen y <> blen P /\ answered_with tr i (e_H E P) (blen y).

(** Transfers that a run needs at most: for every entry 40 for the entry itself, and one for every byte
    that is read back from the target, read from a store or written. *)
Definition enough (n stores : nat) : nat := n * (40 + (stores + 2) * N.to_nat BUF_SIZE).

(** A store that needs no file of its own: the target, or a URL without parameters. *)
Definition remote (tp arg : bytes) : Prop := classify_arg tp arg = ArgTarget \/ (classify_arg tp arg = ArgHttp arg /\ ~ In 35 arg).
