(** Property theorems: content-defined chunking (C14-C19).
    Each theorem is closed by a lemma proved elsewhere. *)
From Verif Require Import Base Lib SpecBasic SpecEnv Utils Discr Chunker SpecChunker PfChunker PfScan PfChunkProps PfDiscr Toy Ex1 Ex2 Ex20.
Local Open Scope N_scope.

(** ** C14 *)

(** Buffers of any sizes. *)
Theorem C14_any_segmentation : forall E p D pieces w,
  disc_of p D -> p_max p <= UINT32_MAX ->
  scan_pieces E p pieces w = (Ok (tiles E 0 (chunks p D (concat pieces))), w).
Proof. exact scan_pieces_spec. Qed.
Print Assumptions C14_any_segmentation.

Example C14_segmentation_met :
  disc_of p_ex 45 /\ p_max p_ex <= UINT32_MAX /\ concat pieces_ex = data_ex /\ pieces_ex <> [data_ex] /\
  map blen (chunks p_ex 45 data_ex) = [80; 65; 15].
Proof. exact (conj disc_ex (conj p_ex_max (conj (proj1 pieces_ex_ok) (conj (proj2 pieces_ex_ok) chunks_ex)))). Qed.

(** Reads of a file under any schedule of short reads, interruptions and errors. *)
Theorem C14_any_reads : forall E ino p D w,
  disc_of p D -> p_max p <= UINT32_MAX ->
  match chunker_scan_fd record E ino p [] w with
  | (Ok (true, log), w') => w_files w' = w_files w /\
      exists n, log = tiles E 0 (chunks p D (firstn n (w_files w ino))) /\
                ((length (w_files w ino) <= n)%nat \/ In IoZero (w_io w))
  | (Ok (false, _), w') => w_files w' = w_files w /\ In IoErr (w_io w)
  | (Halt, w') => w_files w' = w_files w /\ w_io w' = [] /\ (transfers (w_io w) <= length (w_files w ino))%nat
  | _ => False
  end.
Proof. exact scan_fd_record. Qed.
Print Assumptions C14_any_reads.

(** Without errors and with enough reads: the chunks of the whole file. *)
Theorem C14_whole_file : forall E ino p D w,
  disc_of p D -> p_max p <= UINT32_MAX ->
  error_free (w_io w) -> (length (w_files w ino) < transfers (w_io w))%nat ->
  exists w', chunker_scan_fd record E ino p [] w = (Ok (true, tiles E 0 (chunks p D (w_files w ino))), w') /\
             w_files w' = w_files w.
Proof. exact scan_fd_total. Qed.
Print Assumptions C14_whole_file.

Example C14_whole_file_met :
  error_free (w_io (io_world data_ex sched_ex)) /\
  (length (w_files (io_world data_ex sched_ex) 0%nat) < transfers (w_io (io_world data_ex sched_ex)))%nat.
Proof. exact sched_ex_ok. Qed.

(** ** C15 *)
Theorem C15_rolling_hash_is_window_hash : forall p D c d,
  disc_of p D -> reached p c d -> (48 <= length d)%nat -> c_h c = buzhash (last48 d).
Proof. exact reached_hash. Qed.
Print Assumptions C15_rolling_hash_is_window_hash.

(** In particular every call finds the first boundary of the specification. *)
Theorem C15_scan_finds_first_cut : forall p D c d buf,
  disc_of p D -> reached p c d ->
  exists r c', chunker_scan c buf = Ok (r, c') /\
    first_cut p D (d ++ buf) = match r with Some n => Some (length d + n)%nat | None => None end.
Proof. exact reached_total. Qed.
Print Assumptions C15_scan_finds_first_cut.

(** The table is the one of chunker.c: 256 words, here as one number made from its text; and the chunker agrees with a
    boundary that the project's own test expects. *)
Theorem C15_table : length buzhash_table = 256%nat /\ forallb (fun x => x <? 2 ^ 32)%N buzhash_table = true /\ fold_left (fun a x => a * 2 ^ 32 + x)%N buzhash_table 0%N = table_number.
Proof. exact table_is. Qed.
Print Assumptions C15_table.
Example C15_known_answer : kat = Some (Some 16403%N).
Proof. exact kat_is. Qed.

Example C15_met : disc_of p_ex 45 /\ reached p_ex c2_ex (slice 80 60 data_ex) /\ (48 <= length (slice 80 60 data_ex))%nat.
Proof. exact (conj disc_ex reached_ex). Qed.

(** ** C16 *)

(** The chunks of a byte string tile it, none is empty, ... *)
Theorem C16_tiling : forall p D d,
  concat (chunks p D d) = d /\ Forall (fun c => c <> []) (chunks p D d).
Proof. exact (fun p D d => conj (chunks_concat p D d) (chunks_nonempty p D d)). Qed.
Print Assumptions C16_tiling.

(** ... and the sizes are within the bounds. *)
Theorem C16_sizes : forall p D d l c r,
  chunks p D d = l ++ c :: r ->
  blen c <= N.max 48 (p_max p) /\ (r <> [] -> N.max 48 (N.min (p_min p) (p_max p)) <= blen c).
Proof. exact chunks_sizes. Qed.
Print Assumptions C16_sizes.

Example C16_met : map blen (chunks p_ex 45 data_ex) = [80; 65; 15].
Proof. exact chunks_ex. Qed.

(** ** C17 *)
Theorem C17_resynchronisation : forall p D a b,
  boundary_at_end p D a -> chunks p D (a ++ b) = chunks p D a ++ chunks p D b.
Proof. exact boundary_resync. Qed.
Print Assumptions C17_resynchronisation.

Example C17_met : boundary_at_end p_ex 45 (firstn 80 data_ex) /\ firstn 80 data_ex <> [].
Proof. exact boundary_ex. Qed.

(** ** C18 *)
Theorem C18_boundary_is_sticky : forall p D c d buf n c' buf',
  disc_of p D -> reached p c d -> chunker_scan c buf = Ok (Some n, c') ->
  chunker_scan c' buf' = Ok (Some 0%nat, c').
Proof. exact reached_stuck. Qed.
Print Assumptions C18_boundary_is_sticky.

Example C18_met : reached p_ex c0_ex [] /\ chunker_scan c0_ex data_ex = Ok (Some 80%nat, c1_ex).
Proof. exact (conj (reached_init _ _ c0_ex_ok) c1_ex_ok). Qed.

(** ** C19 *)
Theorem C19_discriminator_refuted : exists p c,
  chunker_params_set 0 1 100 = Some p /\ discriminator_from_avg (p_avg p) = Some 0 /\
  chunker_init p = Ok c /\ chunker_scan c buf48 = UB.
Proof. exact disc_refuted_small. Qed.
Print Assumptions C19_discriminator_refuted.

Theorem C19_discriminator_large_refuted : exists p,
  chunker_params_set 1 9324557 9324558 = Some p /\ chunker_init p = UB.
Proof. exact disc_refuted_large. Qed.
Print Assumptions C19_discriminator_large_refuted.

(** All averages in between are fine, all larger ones are not. *)
Theorem C19_discriminator_ok : forall avg,
  2 <= avg <= 9324556 -> exists d, discriminator_from_avg avg = Some d /\ d <> 0.
Proof. exact discriminator_ok. Qed.
Print Assumptions C19_discriminator_ok.

Theorem C19_discriminator_undefined_above : forall avg,
  9324557 <= avg < 4294967296 -> discriminator_from_avg avg = None.
Proof. exact discriminator_large. Qed.
Print Assumptions C19_discriminator_undefined_above.
