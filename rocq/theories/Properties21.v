(** Properties C85 and C51: the memory a run takes.  Statements only. *)
From Verif Require Import Base SpecBasic SpecEnv Utils Chunker Caibx Index MainProg SpecCaibx SpecMain SpecRun StoreHttp SpecHeap PfHeap Toy Ex2 Ex4 Ex9 Ex19 Ex22.
Local Open Scope N_scope.

(** ** C85: memory depends on the sizes of the index and of the local stores *)
(** At any point between two entries, the growing parts of the memory are bounded by 48 bytes per entry of the index to be
    synchronised, 48 bytes for each chunk a local store can have and a fifth more (or for each entry of the index it comes with),
    and eleven responses of a server for each HTTP store; the number of entries processed so far and the size of the image do
    not matter. *)
Theorem C85_memory E argv w B k st w' : sane E argv w -> responses_within E B -> state_after E argv k w = (Ok (Some st), w') ->
  exists iino p n, e_open E (cmd_index argv) = Some iino /\ valid_index (w_files w iino) p n /\
    heap_bytes st <= ENTRY_SIZE * n + sum_of (map (arg_bytes E w (cmd_target argv) p B) (cmd_stores argv)).
Proof. exact (memory_within E argv w B k st w'). Qed.
Print Assumptions C85_memory.
(** "csn i t a:j http://h/x" and "csn i t t http://h/x" at the end of their runs: 102 of 306 and 150 of 210 bytes. *)
Example C85_met : sane E9 argv19 (w19 60) /\ sane E9 argv9 (w9 60) /\ responses_within E9 6.
Proof. exact met85. Qed.
Example C85_seeded : bytes_of (fst (state_after E9 argv19 3 (w19 60))) = Some 102.
Proof. exact heap19. Qed.
Example C85_target : bytes_of (fst (state_after E9 argv9 3 (w9 60))) = Some 150.
Proof. exact heap9. Qed.
Example C85_bounds : ENTRY_SIZE * 3 + sum_of (map (arg_bytes E9 (w19 60) (cmd_target argv19) p_ex 6) (cmd_stores argv19)) = 306 /\
  ENTRY_SIZE * 3 + sum_of (map (arg_bytes E9 (w9 60) (cmd_target argv9) p_ex 6) (cmd_stores argv9)) = 210.
Proof. exact (conj bound19 bound9). Qed.

(** ** C51: what bounds the memory of a request *)
(** C51_memory_refuted shows a request whose memory the output buffer does not bound.  The size of the responses does: ten
    attempts are made, what they deliver is collected in the one buffer, which is never made smaller, and making room for a
    piece may take twice its size. *)
Theorem C51_bounded E B hs id out w r out' hs' w' : responses_within E B -> store_http_get_chunk E hs id out w = (Ok (r, out', hs'), w') ->
  hs_dec_cap hs' <= N.max (hs_dec_cap hs) (11 * B).
Proof. exact (fun H => request_within E B H hs id out w r out' hs' w'). Qed.
Print Assumptions C51_bounded.
Example C51_met : responses_within E9 6.
Proof. exact within9. Qed.
