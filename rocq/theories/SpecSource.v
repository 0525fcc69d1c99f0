(** Where the bytes of a target come from (C93). *)
From Verif Require Import Base SpecBasic SpecCrypto SpecStore SpecHttp SpecCaibx SpecMain SpecRun SpecOrder SpecAvail Utils Chunker Caibx StoreHttp Chain MainProg PfKeyspec.
Local Open Scope N_scope.

(** Decompressing a body that arrives in pieces into a buffer with room for [L] bytes: the pieces so far, what
    of them is still to be given to the decompressor, the calls made to it, and what it has yielded.  It is
    not called before four bytes are there, and these have to be the magic number of a frame.  From then on every
    piece is appended to what is left over and offered as a whole. *)
Inductive decoding (E : env) (L : nat) : list bytes -> bytes -> list (bytes * nat) -> bytes -> Prop :=
| dg_none : decoding E L [] [] [] []
| dg_wait ps left x : decoding E L ps left [] [] -> (length (left ++ x) < 4)%nat -> decoding E L (ps ++ [x]) (left ++ x) [] []
| dg_begin ps left x dc dp : decoding E L ps left [] [] -> firstn 4 (left ++ x) = [40; 181; 47; 253] ->
    e_zstep E [] (left ++ x) L = Some (dc, dp) -> decoding E L (ps ++ [x]) (skipn dc (left ++ x)) [(left ++ x, L)] dp
| dg_next ps left h d x dc dp : h <> [] -> decoding E L ps left h d ->
    e_zstep E h (left ++ x) (L - length d) = Some (dc, dp) ->
    decoding E L (ps ++ [x]) (skipn dc (left ++ x)) ((left ++ x, (L - length d)%nat) :: h) (d ++ dp).
Definition unpacked (E : env) (L : nat) (pieces : list bytes) (D : bytes) : Prop :=
  exists left h, decoding E L pieces left h D /\ h <> [].

Definition sent (E : env) (url : bytes) (first count : nat) : list bytes := flat_map (fun i => p_segs (e_server E url i)) (seq first count).
(** A server gave [D] for [id]: up to ten consecutive transfers for the URL of the chunk, all but the last
    ending with a transient error, the last one not.  The pieces sent, decrypted if the store has a key, unpack to [D].
    (Beyond 2^38 bytes the block counter of the cipher is no longer that of RFC 8439.) *)
Definition gave (E : env) (base : bytes) (key : option bytes) (L : nat) (id D : bytes) : Prop :=
  exists url first k pieces, casync_url base id url (match key with Some _ => true | None => false end) /\ (k < 10)%nat /\
    (forall i, (i < k)%nat -> transient (p_end (e_server E url (first + i)))) /\
    (let p := e_server E url (first + k) in (p_end p = CURLE_OK \/ p_end p = CURLE_WRITE_ERROR) /\ exists s, p_code p = Some s /\ s < 400) /\
    (exists i, (i <= k)%nat /\ p_code (e_server E url (first + i)) = Some 200) /\
    map (@length N) pieces = map (@length N) (sent E url first (S k)) /\
    (blen (concat pieces) <= 2 ^ 38 -> concat (sent E url first (S k)) = on_the_wire key id (concat pieces)) /\
    unpacked E L pieces D.

(** The HTTP store meant by a store argument: base URL and key *)
Definition http_store (E : env) (argv : list bytes) (w : world) (base : bytes) (key : option bytes) : Prop :=
  exists arg, In arg (cmd_stores argv) /\ documented (cmd_target argv) arg (ArgHttp arg) /\ store_denotes E w arg base key.
(** The file of a local store *)
Definition local_store (E : env) (argv : list bytes) (ino : nat) : Prop :=
  exists arg path ip, In arg (cmd_stores argv) /\ documented (cmd_target argv) arg (ArgLocal path ip) /\ e_open E path = Some ino.

(** [D] was obtained for [id] from a server, from the file of a local store, or from the place of an entry with this
    id in the old target [g0], all entries up to which were there. *)
Inductive comes_from (E : env) (b : bool) (argv : list bytes) (w : world) (f g0 : bytes) (n : nat) (id D : bytes) : Prop :=
| cf_http base key : http_store E argv w base key -> gave E base key (N.to_nat BUF_SIZE) id D -> comes_from E b argv w f g0 n id D
| cf_local ino before after : local_store E argv ino -> w_files w ino = before ++ D ++ after ->
    comes_from E b argv w f g0 n id D
| cf_old j : (j < n)%nat -> ent_id f j = id -> (forall i, (i <= j)%nat -> holds E b f i g0) -> D = ent_slice f j g0 ->
    comes_from E b argv w f g0 n id D.

(** The index of a run: its contents and number of entries *)
Definition the_index (E : env) (argv : list bytes) (w : world) (f : bytes) (n : nat) : Prop :=
  exists ino p, e_open E (cmd_index argv) = Some ino /\ w_files w ino = f /\ valid_index f p (N.of_nat n).
(** Every byte of the target is as before the run, or it is part of data which was obtained for the entry at
    whose place it is. *)
Definition sourced (E : env) (b : bool) (argv : list bytes) (w : world) (tino : nat) (w' : world) : Prop :=
  forall k, nth_error (w_files w' tino) k = nth_error (w_files w tino) k \/
    exists f n j D q, the_index E argv w f n /\ (j < n)%nat /\ length D = N.to_nat (ent_size f j) /\
      comes_from E b argv w f (w_files w tino) n (ent_id f j) D /\
      k = (N.to_nat (ent_start f j) + q)%nat /\ (q < length D)%nat /\ nth_error (w_files w' tino) k = nth_error D q.

(** All that a server has for [id] is [P], which need not have this hash: every transfer for its URL fails transiently
    before any data, delivers a body that decompresses to [P], or ends with an HTTP error. *)
Definition only_has (E : env) (base : bytes) (key : option bytes) (id P : bytes) : Prop :=
  exists body, decodes E body P /\ blen body <= 2 ^ 38 /\
    forall url, casync_url base id url (match key with Some _ => true | None => false end) ->
    forall m, fails_early E url m \/ serves E url m (on_the_wire key id body) \/
      (p_end (e_server E url m) = CURLE_OK /\ exists s, p_code (e_server E url m) = Some s /\ 400 <= s).
