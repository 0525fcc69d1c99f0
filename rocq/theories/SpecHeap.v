(** The memory a run takes (C85): the arrays of the indices and the decode buffers are what grows while it lasts.  The
    rest is of a fixed size: the structures, the buffer of main.c:37, the 4096 bytes a scan reads at a time, the URL buffer. *)
From Verif Require Import Base Chunker Caibx Index StoreLocal Target StoreHttp Chain Ui MainProg SpecBasic SpecMain SpecRun SpecEdit.
Local Open Scope N_scope.

(** The bytes of the array of an index (index.c:11, 45). *)
Definition index_bytes (x : index) : N := match ix_ptr x with PLive => ENTRY_SIZE * ix_space x | _ => 0 end.
Definition store_bytes (s : store) : N :=
  match s with SLocal ls => index_bytes (ls_idx ls) | SHttp hs => hs_dec_cap hs | STarget => 0 end.
Definition sum_of (l : list N) : N := fold_right N.add 0 l.
Definition heap_bytes (st : mstate) : N :=
  index_bytes (t_idx (m_target st)) + sum_of (map (fun ss => store_bytes (ss_store ss)) (match m_store st with Some l => l | None => [] end)).

(** Setting up as [main] does and processing up to [k] entries; the state then, whether or not all of them were processed. *)
Definition state_after (E : env) (argv : list bytes) (k : nat) : M (option mstate) :=
  r <- init E argv ;;
  match r with
  | InitOk su =>
      '(_, st) <- iterate_loop (entry_cb E (su_n su)) (su_index su) (su_params su) (su_n su) (Nat.min k (N.to_nat (su_n su))) 0 0 (initial_mstate su) ;;
      ret (Some st)
  | _ => ret None
  end.

(** The contents of a file opened under a name. *)
Definition file_at (E : env) (w : world) (path : bytes) : bytes := match e_open E path with Some i => w_files w i | None => [] end.
(** The number of entries reserved for what a scan of [size] bytes may find: the estimate, or else the number of chunks
    there can be, and a fifth more. *)
Definition scan_space (p : params) (size : N) : N := N.max (12 * size / p_avg p / 10) (12 * (size / least_chunk p) / 10 + 1).
(** The number of entries a file has room for as an index: the header and the table take 104 bytes, an entry 40. *)
Definition entries_of (f : bytes) : N := (blen f - 104) / 40.
(** What the store of one argument may take; [B] bounds the responses of the servers. *)
Definition arg_bytes (E : env) (w : world) (tp : bytes) (p : params) (B : N) (arg : bytes) : N :=
  match classify_arg tp arg with
  | ArgTarget => 0
  | ArgHttp _ => 11 * B
  | ArgLocal path ip => ENTRY_SIZE * N.max (scan_space p (blen (file_at E w path)))
                                           (match ip with Some q => entries_of (file_at E w q) | None => 0 end)
  end.
(** No response has more than [B] bytes. *)
Definition responses_within (E : env) (B : N) : Prop := forall url n, blen (concat (p_segs (e_server E url n))) <= B.
