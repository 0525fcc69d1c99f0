(** What an HTTP store has to do, said in terms of the servers' answers. *)
From Verif Require Import Base SpecBasic SpecCrypto StoreHttp.
Local Open Scope N_scope.

(** Data is handed over in pieces that fit into memory. *)
Definition server_ok (E : env) : Prop := forall url n s, In s (p_segs (e_server E url n)) -> blen s < OFF_LIMIT.

(** ** URLs *)

(** Two hex digits per byte of the id, lower case; [base]/first four digits/all digits.cacnk(.enc) *)
Definition casync_url (base id url : bytes) (enc : bool) : Prop :=
  exists hx, hex_denotes hx id /\ Forall (fun c => In c lower_alphabet) hx /\
    url = base ++ bs "/" ++ firstn 4 hx ++ bs "/" ++ hx ++ bs ".cacnk" ++ (if enc then bs ".enc" else []).
(** The base URL meant by a store argument: everything before the last '#', without one final slash. *)
Definition arg_url (arg url : bytes) : Prop :=
  (arg = url /\ ~ In 35 arg) \/ exists params, arg = url ++ [35] ++ params /\ ~ In 35 params.
Definition url_base (url base : bytes) : Prop :=
  url = base ++ [47] \/ (url = base /\ forall u, url <> u ++ [47]).

(** ** Retries *)
Definition transient (c : curlcode) : Prop :=
  c = CURLE_COULDNT_CONNECT \/ c = CURLE_COULDNT_RESOLVE_HOST \/ c = CURLE_OPERATION_TIMEDOUT.
(** Pause after the [i]-th failed transfer, in microseconds: 200 ms doubled each time, at most 10 s *)
Definition backoff (i : nat) : N := N.min (200000 * 2 ^ N.of_nat i) 10000000.
(** [k] transfers with the pauses in between, oldest first; [slept]: another pause at the end *)
Definition timeline (url : bytes) (k : nat) (slept : bool) : list tev :=
  flat_map (fun i => [TPerform url; TSleep (backoff i)]) (seq 0 (k - 1)) ++ [TPerform url] ++
  (if slept then [TSleep (backoff (k - 1))] else []).

(** ** The error counter *)
Inductive verdict : Type := VDead | VError | VMissing | VUndecodable | VDecoded.
(** What a request amounts to, from the result of its last transfer, the status of the response and
    the state of decoding. *)
Inductive judged : curlcode -> option N -> hstate -> verdict -> Prop :=
| j_transient c code st : transient c -> judged c code st VError
| j_curl code st : judged CURLE_OTHER code st VDead
| j_nocode c st : c = CURLE_OK \/ c = CURLE_WRITE_ERROR -> judged c None st VDead
| j_missing c s st : c = CURLE_OK \/ c = CURLE_WRITE_ERROR -> s = 404 \/ s = 410 -> judged c (Some s) st VMissing
| j_status c s st : c = CURLE_OK \/ c = CURLE_WRITE_ERROR -> 400 <= s -> s <> 404 -> s <> 410 -> judged c (Some s) st VError
| j_bad c s st : c = CURLE_OK \/ c = CURLE_WRITE_ERROR -> s < 400 -> st <> STREAMING -> judged c (Some s) st VUndecodable
| j_good c s : c = CURLE_OK \/ c = CURLE_WRITE_ERROR -> s < 400 -> judged c (Some s) STREAMING VDecoded.
(** Errors since the last decoded response; newest verdict first *)
Fixpoint errors_since (vs : list verdict) : N :=
  match vs with
  | [] => 0
  | VDecoded :: _ => 0
  | VError :: vs => errors_since vs + 1
  | _ :: vs => errors_since vs
  end.

(** ** Bodies *)

(** The states the decompressor can be in after being fed pieces of [frame] in order, with enough
    output room: history, bytes consumed, bytes produced.  *)
Inductive fed (E : env) (frame content : bytes) : list (bytes * nat) -> nat -> nat -> Prop :=
| fed_init : fed E frame content [] 0 0
| fed_step h c p inp rest room dc dp :
    fed E frame content h c p -> inp <> [] -> skipn c frame = inp ++ rest -> (length content - p <= room)%nat ->
    e_zstep E h inp room = Some (dc, dp) -> fed E frame content ((inp, room) :: h) (c + dc) (p + length dp).
(** [frame] is a frame that decompresses to [content]: however it is cut into pieces, the decompressor
    accepts each piece or a beginning of it, yields the next bytes of the content, and yields all of
    it when it has been given all of the frame.  (ZSTD_decompressStream, and nothing beyond it.) *)
Definition decodes (E : env) (frame content : bytes) : Prop :=
  (exists t, frame = [40; 181; 47; 253] ++ t) /\
  forall h c p inp rest room, fed E frame content h c p -> inp <> [] -> skipn c frame = inp ++ rest ->
    (length content - p <= room)%nat ->
    exists dc dp, e_zstep E h inp room = Some (dc, dp) /\ (dc <= length inp)%nat /\
      (exists more, skipn p content = dp ++ more /\ (rest = [] -> dc = length inp /\ more = [])).

(** What the server has to send for [body]: the body itself, or its XChaCha20 encryption under the
    store's key with the first 24 bytes of the id as nonce. *)
Definition on_the_wire (key : option bytes) (id body : bytes) : bytes :=
  match key with None => body | Some k => xchacha k (firstn 24 id) body end.

(** The [n]-th transfer for [url] delivers [data], in any pieces. *)
Definition serves (E : env) (url : bytes) (n : nat) (data : bytes) : Prop :=
  let p := e_server E url n in
  p_code p = Some 200 /\ p_end p = CURLE_OK /\ concat (p_segs p) = data /\ ~ In [] (p_segs p).
(** The [n]-th transfer for [url] fails transiently before any data was handed over. *)
Definition fails_early (E : env) (url : bytes) (n : nat) : Prop :=
  let p := e_server E url n in p_segs p = [] /\ transient (p_end p).

(** The key given by the parameters after '#': a comma-separated list of encrypt=KEYSPEC, of which
    the last one counts ([key_text], C36, is the text a KEYSPEC refers to). *)
Inductive params_key (text : bytes -> bytes -> Prop) : bytes -> option bytes -> option bytes -> Prop :=
| pk_nil k : params_key text [] k k
| pk_last spec k0 t k : ~ In 44 spec -> text spec t -> length t = 64%nat -> hex_denotes t k ->
    params_key text (bs "encrypt=" ++ spec) k0 (Some k)
| pk_more spec rest k0 t k kf : ~ In 44 spec -> text spec t -> length t = 64%nat -> hex_denotes t k ->
    params_key text rest (Some k) kf -> params_key text (bs "encrypt=" ++ spec ++ [44] ++ rest) k0 kf.

(** [p2] is the transfer [p1] with its body encrypted, cut at the same places.  Nothing is said about bodies
    that come with another status than 200; attempts that fail transiently deliver nothing. *)
Definition encrypted_transfer (key id : bytes) (p1 p2 : perf) : Prop :=
  p_code p2 = p_code p1 /\ p_end p2 = p_end p1 /\ map (@length N) (p_segs p2) = map (@length N) (p_segs p1) /\
  (transient (p_end p1) -> p_segs p1 = []) /\
  (p_code p1 = Some 200 -> concat (p_segs p2) = xchacha key (firstn 24 id) (concat (p_segs p1))).
(** The same environment with other servers *)
Definition with_server (E : env) (srv : bytes -> nat -> perf) : env :=
  mkEnv (e_H E) (e_qsort E) (e_bsearch E) (e_zstep E) srv (e_open E) (e_open_rw E) (e_kind E) (e_getenv E)
    (e_kcapi_ok E) (e_http_ok E) (e_interactive E).

(** ** A store over time *)

(** Requests for ids, each with some contents of the output buffer; none after a failure. *)
Fixpoint ask_http (E : env) (hs : hstore) (reqs : list (bytes * bytes)) : M (list (option N * bytes)) :=
  match reqs with
  | [] => ret []
  | (id, out) :: reqs' =>
      '(r, out', hs) <- store_http_get_chunk E hs id out ;;
      match r with
      | None => ret [(None, out')]
      | Some _ => rs <- ask_http E hs reqs' ;; ret ((r, out') :: rs)
      end
  end.
Definition use_http (E : env) (arg : bytes) (reqs : list (bytes * bytes)) : M (option (list (option N * bytes))) :=
  h <- store_http_new E arg ;;
  match h with
  | None => ret None
  | Some hs => rs <- ask_http E hs reqs ;; ret (Some rs)
  end.
