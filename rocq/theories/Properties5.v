(** Properties C28-C34 and C51: the HTTP store.  Statements only. *)
From Verif Require Import Base Lib SpecBasic SpecCrypto SpecEnv Utils Encrypt StoreHttp SpecStore SpecHttp
  PfUtils PfBasic PfIO PfEncrypt PfKeyspec PfFrame PfIndex PfLocal PfHttp PfHttp2 PfHttp3 PfHttp4 PfHttp5 Toy Ex5.
Local Open Scope N_scope.

(** Whatever the servers answer, every answer of a store over its whole life is authentic, and the
    program neither aborts nor runs into undefined behaviour (no write outside a buffer). *)
Theorem C28_store_life E arg reqs w :
  zstd_ok E -> server_ok E -> env_strings E -> no_nul arg -> Forall (fun r => length (fst r) = 32%nat) reqs ->
  w_kcapi w = false \/ kernel_ok (w_kev w) ->
  wp (use_http E arg reqs)
     (fun r _ => match r with Some rs => Forall2 (authentic E true) (firstn (length rs) reqs) rs | None => True end)
     (fun bd _ => bd = BHalt) w.
Proof. exact (fun Hz Hs He Hn Hl Hk => use_http_spec E true arg reqs w Hz Hs He Hn (fun _ => Hk) Hl). Qed.
Print Assumptions C28_store_life.
(** Whatever the kernel hash interface does, an end piece of the data hashes to the id. *)
Theorem C28_any_kernel E arg reqs w :
  zstd_ok E -> server_ok E -> env_strings E -> no_nul arg -> Forall (fun r => length (fst r) = 32%nat) reqs ->
  wp (use_http E arg reqs)
     (fun r _ => match r with Some rs => Forall2 (authentic E false) (firstn (length rs) reqs) rs | None => True end)
     (fun bd _ => bd = BHalt) w.
Proof. exact (fun Hz Hs He Hn Hl => use_http_spec E false arg reqs w Hz Hs He Hn (fun C => False_ind _ (Bool.diff_false_true C)) Hl). Qed.
Print Assumptions C28_any_kernel.
Example C28_meets : zstd_ok (web srv_good) /\ server_ok (web srv_good) /\ env_strings (web srv_good) /\
  match fst (use_http (web srv_good) (bs "http://h/x/") [(fid, out_ex); (toyH [1], out_ex); (fid, out_ex)] web_world) with Ok (Some rs) => map fst rs | _ => [] end =
  [Some 7; Some 0; Some 7].
Proof. exact (conj (web_zstd _) (conj srv_good_ok (conj (web_strings _) life_run))). Qed.

(** The chunk is returned for every way of cutting the body into (non-empty) pieces.  [Halt] means
    that the list of results of the kernel hash interface was too short. *)
Theorem C29_segmentation E hs id out w body content B :
  http_ok hs -> hs_key hs = None -> length id = 32%nat -> w_kcapi w = false \/ kernel_ok (w_kev w) -> w_alloc w = [] ->
  decodes E body content -> e_H E content = id -> (length content <= length out)%nat ->
  blen body <= B -> hs_dec_cap hs <= 2 * B -> 3 * B < SIZE_MOD ->
  serves E (chunk_url hs id) (w_nperf w) body ->
  wp (store_http_get_chunk E hs id out)
     (fun x _ => let '(r, out', hs') := x in r = Some (blen content) /\ out' = overlay content out /\ hs_err hs' = 0)
     (fun bd w' => bd = BHalt /\ w_kcapi w' = true) w.
Proof. exact (http_segmentation E hs id out w body content B). Qed.
Print Assumptions C29_segmentation.
Example C29_meets : http_ok hs_ex /\ decodes (web (fun _ => ok_ex)) frame_ex frame_ex /\ e_H (web (fun _ => ok_ex)) frame_ex = fid /\
  serves (web (fun _ => ok_ex)) (chunk_url hs_ex fid) (w_nperf web_world) frame_ex /\ hs_dec_cap hs_ex <= 2 * 1000 /\ blen frame_ex <= 1000.
Proof. exact C29_ex. Qed.

(** Encryption changes nothing but the URL: a store with a key, asking servers that send what the
    plain store's servers send but encrypted, gives the same answer, buffer and error count. *)
Theorem C30_transparent E srv hs key id out w B :
  zstd_ok E -> http_ok hs -> hs_key hs = None -> bytes_ok key -> length key = 32%nat ->
  bytes_ok id -> length id = 32%nat -> w_alloc w = [] -> hs_dec_cap hs <= 2 * B -> 3 * B < SIZE_MOD ->
  let hs2 := mkHStore (hs_base hs) (hs_url_cap hs) (hs_dec_cap hs) (hs_err hs) (Some key) in
  (forall i, (i < 10)%nat -> let p := e_server E (chunk_url hs id) (w_nperf w + i) in
     encrypted_transfer key id p (srv (chunk_url hs2 id) (w_nperf w + i)%nat) /\ blen (concat (p_segs p)) <= 2 ^ 38 /\ blen (concat (p_segs p)) <= B) ->
  answer_of (fst (store_http_get_chunk (with_server E srv) hs2 id out w)) = answer_of (fst (store_http_get_chunk E hs id out w)).
Proof. exact (http_encrypted E srv hs key id out w B). Qed.
Print Assumptions C30_transparent.
(** Such servers exist for every server (the URLs differ in ".enc"). *)
Example C30_meets key id (srv : bytes -> nat -> perf) : bytes_ok key -> length key = 32%nat -> bytes_ok id -> length id = 32%nat ->
  (forall u n, transient (p_end (srv u n)) -> p_segs (srv u n) = []) -> (forall u n, blen (concat (p_segs (srv u n))) <= 2 ^ 38) ->
  exists srv2 : bytes -> nat -> perf, forall u n, encrypted_transfer key id (srv u n) (srv2 (u ++ bs ".enc") n).
Proof. exact (encrypted_server key id srv). Qed.
(** With or without a key, the chunk is returned when its frame, encrypted if there is a key, is sent
    in any pieces after up to nine transfers that failed before sending anything. *)
Theorem C30_C32_delivered E hs id out w body content j B : http_ok hs -> length id = 32%nat -> bytes_ok id ->
  (forall k, hs_key hs = Some k -> length k = 32%nat /\ bytes_ok k) -> w_kcapi w = false \/ kernel_ok (w_kev w) -> w_alloc w = [] ->
  decodes E body content -> e_H E content = id -> (length content <= length out)%nat -> blen body <= 2 ^ 38 ->
  blen body <= B -> hs_dec_cap hs <= 2 * B -> 3 * B < SIZE_MOD -> (j < 10)%nat ->
  (forall i, (i < j)%nat -> fails_early E (chunk_url hs id) (w_nperf w + i)) ->
  serves E (chunk_url hs id) (w_nperf w + j) (on_the_wire (hs_key hs) id body) ->
  wp (store_http_get_chunk E hs id out) (fun x w' => let '(r, out', hs') := x in
        r = Some (blen content) /\ out' = overlay content out /\ hs_err hs' = 0 /\ same_store hs hs' /\ hs_dec_cap hs' <= 2 * B)
     (fun bd w' => bd = BHalt /\ w_kcapi w' = true) w.
Proof. exact (http_delivers_wire E hs id out w body content j B). Qed.
Print Assumptions C30_C32_delivered.
Example C32_meets : fails_early (web srv_good) (chunk_url hs_ex fid) 0 /\ fails_early (web srv_good) (chunk_url hs_ex fid) 1 /\
  serves (web srv_good) (chunk_url hs_ex fid) 2 frame_ex.
Proof. exact good_serves. Qed.

(** One to ten transfers of the one URL; all but the last failed transiently; pauses of 200 ms,
    doubled each time up to 10 s, after each transient failure (also after a tenth). *)
Theorem C31_retries E hs id out w r out' hs' w' :
  zstd_ok E -> server_ok E -> http_ok hs -> length id = 32%nat -> w_alloc w = [] ->
  store_http_get_chunk E hs id out w = (Ok (r, out', hs'), w') ->
  let url := chunk_url hs id in
  exists k slept c, (1 <= k <= 10)%nat /\ w_trace w' = rev (timeline url k slept) ++ w_trace w /\
    (forall i, (S i < k)%nat -> transient (p_end (e_server E url (w_nperf w + i)))) /\
    (c = p_end (e_server E url (w_nperf w + (k - 1))) \/ c = CURLE_WRITE_ERROR) /\
    (slept = true <-> transient c) /\ (slept = true -> k = 10%nat).
Proof. exact (http_retries E hs id out w r out' hs' w'). Qed.
Print Assumptions C31_retries.
Example C31_meets :
  answer (fst (store_http_get_chunk (web srv_good) hs_ex fid out_ex web_world)) = Some (Some 7, frame_ex ++ repeat 0 13) /\
  w_trace (snd (store_http_get_chunk (web srv_good) hs_ex fid out_ex web_world)) = rev (timeline (chunk_url hs_ex fid) 3 false).
Proof. exact good_run. Qed.

(** The full claim fails: a transfer that broke off after handing over data makes the store reject
    the complete body of the retry (decoder, decode buffer and cipher are not reset). *)
Theorem C32_retry_refuted : exists E hs id out w body content,
  env_ok E /\ server_ok E /\ http_ok hs /\ length id = 32%nat /\ decodes E body content /\ e_H E content = id /\ (length content <= length out)%nat /\
  w_alloc w = [] /\ w_kcapi w = false /\
  transient (p_end (e_server E (chunk_url hs id) (w_nperf w))) /\ serves E (chunk_url hs id) (S (w_nperf w)) body /\
  exists out' hs' w', store_http_get_chunk E hs id out w = (Ok (Some 0, out', hs'), w') /\ w_nperf w' = (w_nperf w + 2)%nat.
Proof. exact broken_run. Qed.
Print Assumptions C32_retry_refuted.

(** After any history of requests, in any worlds: a request fails for good exactly if curl or the
    response is unusable, or it is an error and more than ten errors (this one included) occurred
    since the last decoded response. *)
Theorem C33_given_up E hs0 vs hs v id out w r out' hs' w' :
  zstd_ok E -> server_ok E -> http_ok hs0 -> hs_err hs0 = 0 -> history E hs0 vs hs ->
  N.of_nat (length vs) < 2 ^ 32 - 1 -> length id = 32%nat -> w_alloc w = [] ->
  store_http_get_chunk E hs id out w = (Ok (r, out', hs'), w') -> judgement E hs id out w v ->
  (r = None <-> v = VDead \/ (v = VError /\ 10 < errors_since (v :: vs))).
Proof. exact (history_answer E hs0 vs hs v id out w r out' hs' w'). Qed.
Print Assumptions C33_given_up.
(** The counter itself *)
Theorem C33_counter E hs0 vs hs : zstd_ok E -> server_ok E -> http_ok hs0 -> hs_err hs0 = 0 -> history E hs0 vs hs ->
  N.of_nat (length vs) < 2 ^ 32 -> http_ok hs /\ hs_err hs = errors_since vs.
Proof. exact (fun Hz Hs Hh H0 H => history_errors E hs0 Hz Hs Hh H0 vs hs H). Qed.
Print Assumptions C33_counter.
(** The verdict is determined by the request, and it is that on its last transfer. *)
Theorem C33_verdict E hs id out w v1 v2 : w_alloc w = [] -> judgement E hs id out w v1 -> judgement E hs id out w v2 -> v1 = v2.
Proof. exact (judgement_fun E hs id out w v1 v2). Qed.
Print Assumptions C33_verdict.
Example C33_meets : (exists v hs, history (web srv_500) hs_ex [v] hs) /\
  match fst (ask_http (web srv_500) hs_ex (repeat (fid, out_ex) 13) web_world) with Ok rs => map fst rs | _ => [] end = repeat (Some 0) 10 ++ [None].
Proof. exact (conj history_500 dead_run). Qed.

(** URLs follow the layout and fit the buffer; C28 and C31 say that nothing else is asked for and
    that no buffer is overrun. *)
Theorem C34_url hs id : length id = 32%nat -> bytes_ok id -> http_ok hs ->
  casync_url (hs_base hs) id (chunk_url hs id) (is_enc hs) /\ blen (chunk_url hs id) + 1 <= hs_url_cap hs.
Proof. exact (url_fits hs id). Qed.
Print Assumptions C34_url.
(** A store made from an argument has its base URL, key and room for the URLs. *)
Theorem C34_new_store E arg w : env_strings E -> no_nul arg ->
  wp (store_http_new E arg) (fun r _ => match r with Some hs => new_store_spec E w arg hs | None => True end) (fun b _ => b = BHalt) w.
Proof. exact (wp_http_new E arg w). Qed.
Print Assumptions C34_new_store.
Example C34_meets : match fst (store_http_new (web srv_good) (bs "http://h/x/") web_world) with
  | Ok (Some hs) => hs_base hs = bs "http://h/x" /\ chunk_url hs fid = bs "http://h/x/28b5/28b52ffd07080900000000000000000000000000000000000000000000000007.cacnk"
  | _ => False end.
Proof. exact new_run. Qed.

(** The memory used for a request is not bounded by the size of the output buffer: a body that does
    not fit is collected in the decode buffer, up to any size. *)
Theorem C51_memory_refuted n : n < 2 ^ 50 -> exists E hs id out w r out' hs' w',
  env_ok E /\ server_ok E /\ http_ok hs /\ length id = 32%nat /\ (forall u k s, In s (p_segs (e_server E u k)) -> blen s <= 16384) /\
  store_http_get_chunk E hs id out w = (Ok (r, out', hs'), w') /\ n <= hs_dec_cap hs'.
Proof. exact (buffer_grows n). Qed.
Print Assumptions C51_memory_refuted.
