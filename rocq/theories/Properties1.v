(** Property theorems: helpers, hashing and encryption (C35-C38, C42-C44).
    Each theorem is closed by a lemma proved elsewhere. *)
From Verif Require Import Base Lib SpecBasic SpecCrypto SpecEnv Utils Sha Encrypt PfUtils PfBasic PfIO PfEncrypt PfKeyspec Toy Ex1.
Local Open Scope N_scope.

(** ** C35 *)

(** Any sequence of calls after a restart produces the data XORed with the XChaCha20 key stream
    of the draft, each call as many bytes as it was given.  2^38 bytes is where the draft's
    32-bit block counter ends. *)
Theorem C35_encrypt_is_xchacha20 : forall key nonce pieces,
  bytes_ok key -> length key = 32%nat -> bytes_ok nonce -> (24 <= length nonce)%nat ->
  N.of_nat (length (concat pieces)) <= 2 ^ 38 ->
  concat (fst (encrypt_calls (encrypt_restart key nonce) pieces)) = xchacha key nonce (concat pieces) /\
  map (@length N) (fst (encrypt_calls (encrypt_restart key nonce) pieces)) = map (@length N) pieces.
Proof.
  exact (fun key nonce pieces Hk Lk Hn Ln L =>
    encrypt_calls_spec key nonce Hk Lk Hn Ln pieces (encrypt_restart key nonce)
      (proj1 (encrypt_restart_for key nonce)) L).
Qed.
Print Assumptions C35_encrypt_is_xchacha20.

(** Encrypting twice with a restart in between is the identity (no bound on the length). *)
Theorem C35_encrypt_self_inverse : forall key nonce data,
  fst (encrypt_do (encrypt_restart key nonce) (fst (encrypt_do (encrypt_restart key nonce) data))) = data.
Proof. exact (fun key nonce => encrypt_do_invol (encrypt_restart key nonce)). Qed.
Print Assumptions C35_encrypt_self_inverse.

(** Splitting the data over two calls changes neither the output nor the state (no bound). *)
Theorem C35_encrypt_streamable : forall c a b,
  fst (encrypt_do c (a ++ b)) = fst (encrypt_do c a) ++ fst (encrypt_do (snd (encrypt_do c a)) b) /\
  snd (encrypt_do c (a ++ b)) = snd (encrypt_do (snd (encrypt_do c a)) b).
Proof. exact encrypt_do_app. Qed.
Print Assumptions C35_encrypt_streamable.

Example C35_hypotheses_met :
  bytes_ok (repeat 9 32) /\ length (repeat 9 32) = 32%nat /\ bytes_ok (repeat 1 24) /\ (24 <= length (repeat 1 24))%nat /\
  concat (fst (encrypt_calls (encrypt_restart (repeat 9 32) (repeat 1 24)) [[1; 2]; []; [3]])) <> [1; 2; 3].
Proof. repeat split; try (repeat constructor; lia); vm_compute; discriminate. Qed.

(** ** C36 *)

(** Success means that the text selected by the specification is 64 hex digits denoting the key;
    failure leaves the output buffer untouched or wiped, and wiped if a digit was invalid (a key
    file may also be unreadable).  Nothing is modified. *)
Theorem C36_keyspec_sound : forall E ko spec w,
  no_nul spec -> env_strings E -> length ko = 32%nat ->
  match encrypt_parse_keyspec_buf E ko spec w with
  | (Ok (true, out), w') => w_files w' = w_files w /\
      exists s, key_text E w spec s /\ length s = 64%nat /\ hex_denotes s out
  | (Ok (false, out), w') => w_files w' = w_files w /\ (out = ko \/ out = repeat 0 32) /\
      (forall s, key_text E w spec s -> length s = 64%nat -> ~ Forall is_hex s ->
         (exists p, spec = bs "file:" ++ p) \/ out = repeat 0 32)
  | (Halt, w') => w_files w' = w_files w
  | _ => False
  end.
Proof. exact keyspec_buf_spec. Qed.
Print Assumptions C36_keyspec_sound.

(** Keys given literally or by environment variable: accepted iff 64 hex digits. *)
Theorem C36_keyspec_literal_and_env : forall E ko spec s w,
  no_nul spec -> env_strings E -> length ko = 32%nat ->
  (spec = bs "key:" ++ s \/ exists v, spec = bs "env:" ++ v /\ e_getenv E v = Some s) ->
  exists ok out, encrypt_parse_keyspec_buf E ko spec w = (Ok (ok, out), w) /\
    (ok = true <-> length s = 64%nat /\ Forall is_hex s) /\ (ok = true -> hex_denotes s out).
Proof. exact keyspec_literal. Qed.
Print Assumptions C36_keyspec_literal_and_env.

(** Key files consisting of one line (with any line ends, possibly followed by a NUL and more): the
    same for the line, when reading succeeds. *)
Theorem C36_keyspec_file : forall E ko p ino t e j w,
  no_nul p -> env_strings E -> length ko = 32%nat ->
  e_open E p = Some ino -> e_kind E ino <> KOther ->
  w_files w ino = t ++ e ++ j -> Forall (fun c => ~ eol c) t -> no_nul t -> Forall eol e ->
  j = [] \/ (exists j', j = 0 :: j') ->
  w_alloc w = [] -> error_free (w_io w) -> (length (w_files w ino) <= transfers (w_io w))%nat ->
  exists ok out w', encrypt_parse_keyspec_buf E ko (bs "file:" ++ p) w = (Ok (ok, out), w') /\
    (ok = true <-> length t = 64%nat /\ Forall is_hex t) /\ (ok = true -> hex_denotes t out).
Proof. exact keyspec_file. Qed.
Print Assumptions C36_keyspec_file.

Example C36_cases : _ := keyspec_example.

(** ** C37 *)
Theorem C37_hex_roundtrip : forall id, bytes_ok id -> parse_hex (chunk_format_id id) = Some id.
Proof. exact hex_roundtrip. Qed.
Print Assumptions C37_hex_roundtrip.

Theorem C37_parse_accepts_exactly_hex : forall s,
  no_nul s -> ((exists r, parse_hex s = Some r) <-> Forall is_hex s).
Proof. exact parse_hex_accepts. Qed.
Print Assumptions C37_parse_accepts_exactly_hex.

Theorem C37_parse_value : forall s d,
  no_nul s -> Nat.Even (length s) -> (parse_hex s = Some d <-> hex_denotes s d).
Proof. exact hex_denotes_iff. Qed.
Print Assumptions C37_parse_value.

Theorem C37_format_lower_case : forall id, bytes_ok id ->
  length (chunk_format_id id) = (2 * length id)%nat /\
  Forall (fun c => In c lower_alphabet) (chunk_format_id id).
Proof. exact format_lower. Qed.
Print Assumptions C37_format_lower_case.

Example C37_cases :
  parse_hex (chunk_format_id [0; 171; 255]) = Some [0; 171; 255] /\
  chunk_format_id [0; 171; 255] = bs "00abff" /\ parse_hex (bs "0G") = None /\ no_nul (bs "00abff").
Proof. repeat split; vm_compute; try reflexivity. intuition discriminate. Qed.

(** ** C38 *)
Theorem C38_chomp_refuted : exists s t, no_nul s /\ chomped s t /\ chomp s <> t.
Proof. exact chomp_refuted. Qed.
Print Assumptions C38_chomp_refuted.

(** Without interior line ends chomp does what its name says. *)
Theorem C38_chomp_single_line : forall t e,
  Forall (fun c => ~ eol c) t -> Forall eol e -> chomp (t ++ e) = t.
Proof. exact chomp_trailing. Qed.
Print Assumptions C38_chomp_single_line.

(** What it does in general: it cuts at the last run of line ends. *)
Theorem C38_chomp_characterised : forall a e t,
  e <> [] -> Forall eol e -> Forall (fun c => ~ eol c) t -> (forall a' c, a = a' ++ [c] -> ~ eol c) ->
  chomp (a ++ e ++ t) = a.
Proof. exact chomp_last_run. Qed.
Print Assumptions C38_chomp_characterised.

Example C38_cases : chomp (bs "ab" ++ [13; 10; 10]) = bs "ab" /\ Forall (fun c => ~ eol c) (bs "ab") /\ Forall eol [13; 10; 10].
Proof. split; [reflexivity|]. split; apply Forall_forall; unfold eol; cbn; intros x H; lia. Qed.

(** ** C42 *)
Theorem C42_sha_once_refuted : exists E data w d w',
  hash_ok E /\ sha_once E data w = (Ok d, w') /\ d <> e_H E data.
Proof. exact sha_once_refuted. Qed.
Print Assumptions C42_sha_once_refuted.

(** Without the kernel interface, or while it does not fail, the digest is that of the whole
    input, for every sequence of partial and interrupted sends. *)
Theorem C42_sha_once_correct : forall E data w d w',
  w_kcapi w = false \/ kernel_ok (w_kev w) ->
  sha_once E data w = (Ok d, w') -> d = e_H E data.
Proof. exact sha_once_clean. Qed.
Print Assumptions C42_sha_once_correct.

(** In all cases it is the digest of an end piece of the input, and a digest obtained while the
    kernel interface stays enabled is the right one. *)
Theorem C42_sha_once_any : forall E data w d w',
  sha_once E data w = (Ok d, w') ->
  (exists s, end_piece s data /\ d = e_H E s) /\ (w_kcapi w' = w_kcapi w -> d = e_H E data).
Proof. exact sha_once_any. Qed.
Print Assumptions C42_sha_once_any.

Example C42_cases : _ := sha_once_partial_sends.

(** ** C43 *)

(** A read returns exactly the requested bytes of the file or reports failure with a prefix of
    them; it never aborts and changes nothing but the schedule.  (readall is the same loop at the file position.) *)
Theorem C43_preadall : forall ino len off w,
  match preadall ino len off w with
  | (Ok (ok, buf), w') => (exists ev, suffix ev (w_io w) /\ w' = set_io ev w) /\
      (if ok then blen buf = len /\ (len <> 0 -> file_has (w_files w ino) off buf)
       else blen buf < len /\ (buf <> [] -> file_has (w_files w ino) off buf))
  | (Halt, w') => w' = set_io [] w
  | (Abort, _) | (UB, _) => False
  end.
Proof. exact preadall_total. Qed.
Print Assumptions C43_preadall.

Theorem C43_preadall_succeeds : forall ino len off w,
  error_free (w_io w) -> off + len <= blen (w_files w ino) -> off < OFF_LIMIT ->
  (N.to_nat len <= transfers (w_io w))%nat ->
  exists buf w', preadall ino len off w = (Ok (true, buf), w').
Proof. exact preadall_progress. Qed.
Print Assumptions C43_preadall_succeeds.

(** A write puts a prefix of the data at the given place and changes nothing else, whatever
    happens; success means all of it was written.  A block device never changes its size. *)
Theorem C43_pwriteall : forall E ino data off w,
  let w' := snd (pwriteall E ino data off w) in
  exists n, (n <= length data)%nat /\
    written (w_files w ino) (N.to_nat off) (firstn n data) (w_files w' ino) /\
    (forall j, j <> ino -> w_files w' j = w_files w j) /\
    (fst (pwriteall E ino data off w) = Ok true -> n = length data) /\
    (e_kind E ino = KBlk -> length (w_files w' ino) = length (w_files w ino)) /\
    fst (pwriteall E ino data off w) <> UB.
Proof. exact pwriteall_total. Qed.
Print Assumptions C43_pwriteall.

Theorem C43_pwriteall_succeeds : forall E ino data off w,
  error_free (w_io w) -> off + blen data <= OFF_LIMIT -> e_kind E ino <> KOther ->
  (e_kind E ino = KBlk -> off + blen data <= blen (w_files w ino)) ->
  (length data <= transfers (w_io w))%nat ->
  exists w', pwriteall E ino data off w = (Ok true, w').
Proof. exact pwriteall_progress. Qed.
Print Assumptions C43_pwriteall_succeeds.

(** writeall on an output that is appended to. *)
Theorem C43_writeall : forall ev out data r out' ev',
  write_loop out data ev = (r, out', ev') ->
  exists n, (n <= length data)%nat /\ out' = out ++ firstn n data /\ (r = IoDone -> n = length data).
Proof. exact write_loop_spec. Qed.
Print Assumptions C43_writeall.

Theorem C43_writeall_succeeds : forall ev out data r out' ev',
  error_free ev -> (length data <= transfers ev)%nat ->
  write_loop out data ev = (r, out', ev') -> r = IoDone.
Proof. exact write_loop_progress. Qed.
Print Assumptions C43_writeall_succeeds.

Example C43_cases :
  let ev := [IoN 0; IoIntr; IoN 1; IoN 7; IoIntr; IoN 7; IoN 7; IoN 7] in
  error_free ev /\
  preadall 5 4 1 (io_world [1; 2; 3; 4; 5; 6] ev) = (Ok (true, [2; 3; 4; 5]), io_world [1; 2; 3; 4; 5; 6] [IoIntr; IoN 7; IoN 7; IoN 7]) /\
  fst (pwriteall toy0 5 [8; 9; 7] 7 (io_world [1; 2] ev)) = Ok true /\
  w_files (snd (pwriteall toy0 5 [8; 9; 7] 7 (io_world [1; 2] ev))) 5%nat = [1; 2; 0; 0; 0; 0; 0; 8; 9; 7].
Proof. split; [repeat constructor|]. vm_compute. auto. Qed.

(** ** C44 *)
Theorem C44_unp64le : forall d, bytes_ok d -> (8 <= length d)%nat -> unp64le d = le_value (firstn 8 d).
Proof. exact unp64le_value. Qed.
Print Assumptions C44_unp64le.

Theorem C44_unp32le : forall d, bytes_ok d -> (4 <= length d)%nat -> unp32le d = le_value (firstn 4 d).
Proof. exact unp32le_value. Qed.
Print Assumptions C44_unp32le.

Theorem C44_p32le_roundtrip : forall v, v < 2 ^ 32 -> unp32le (p32le v) = v.
Proof. exact unp32le_p32le. Qed.
Print Assumptions C44_p32le_roundtrip.

Theorem C44_unp32le_roundtrip : forall d, bytes_ok d -> length d = 4%nat -> p32le (unp32le d) = d.
Proof. exact p32le_unp32le. Qed.
Print Assumptions C44_unp32le_roundtrip.

Example C44_cases : unp64le [1; 2; 0; 0; 0; 0; 0; 128] = 9223372036854776321 /\ unp32le (p32le 3735928559) = 3735928559.
Proof. vm_compute. auto. Qed.
