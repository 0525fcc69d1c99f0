(** Model of /repo/caibx.c. *)
From Verif Require Import Base Utils Chunker.
Local Open Scope N_scope.

(** caibx.c:14-23 *)
Definition CA_FORMAT_INDEX : N := 10845316187136630777.             (* 0x96824d9c7b129ff9 *)
Definition CA_FORMAT_TABLE : N := 16671092242283708797.             (* 0xe75b9e112f17417d *)
Definition CA_FORMAT_TABLE_TAIL_MARKER : N := 5426561635123326161.  (* 0x4b4f050e5549ecd1 *)
Definition CA_HEADER_LEN : N := 48.
Definition CA_TABLE_HEADER_LEN : N := 16.
Definition CA_TABLE_ENTRY_LEN : N := 40.
Definition CA_TABLE_MIN_LEN : N := CA_TABLE_HEADER_LEN + CA_TABLE_ENTRY_LEN.

(** The file position of [fd] is an explicit argument [pos]; lseek does not fail
    on the regular files and block devices that get past fd_size. *)

(** caibx.c:25-38 [load_section_header]: (magic, len) *)
Definition load_section_header (ino : nat) (pos : N) : M (option (N * N)) :=
  '(ok, buf) <- readall ino pos 16 ;;
  if negb (ok : bool) then ret None
  else ret (Some (unp64le (skipn 8 buf), unp64le buf)).

(** caibx.c:64: ~UINT64_C(0xd000000000000000) as a mask of uint64_t *)
Definition FLAGS_MASK : N := 3458764513820540927.

(** caibx.c:40-81 [load_index_header] (params_out is never NULL) *)
Definition load_index_header (ino : nat) (pos : N) : M (option params) :=
  h <- load_section_header ino pos ;;
  match h with
  | None => ret None
  | Some (magic, len) =>
      if negb (magic =? CA_FORMAT_INDEX) then ret None
      else if len <? CA_HEADER_LEN then ret None
      else
        '(ok, buf) <- readall ino (pos + 16) 32 ;;
        if negb (ok : bool) then ret None
        else if negb (N.land (unp64le buf) FLAGS_MASK =? 0) then ret None
        else ret (chunker_params_set (unp64le (skipn 8 buf)) (unp64le (skipn 16 buf))
                                     (unp64le (skipn 24 buf)))
  end.

(** caibx.c:83-101 [validate_table_header] *)
Definition validate_table_header (ino : nat) (pos : N) : M bool :=
  h <- load_section_header ino pos ;;
  match h with
  | None => ret false
  | Some (magic, _) => ret (magic =? CA_FORMAT_TABLE)
  end.

(** caibx.c:103-148 [validate_table_footer] *)
Definition validate_table_footer (ino : nat) (n_entries : N) : M bool :=
  '(ok, buf) <- readall ino (CA_HEADER_LEN + CA_TABLE_HEADER_LEN + n_entries * CA_TABLE_ENTRY_LEN)
                        CA_TABLE_ENTRY_LEN ;;
  if negb (ok : bool) then ret false
  else ret ((unp64le buf =? 0) && (unp64le (skipn 8 buf) =? 0)
            && (unp64le (skipn 16 buf) =? CA_HEADER_LEN)
            && (unp64le (skipn 24 buf) =? CA_TABLE_HEADER_LEN + (n_entries + 1) * CA_TABLE_ENTRY_LEN)
            && (unp64le (skipn 32 buf) =? CA_FORMAT_TABLE_TAIL_MARKER)).

(** caibx.c:150-182 [caibx_load_header] *)
Definition caibx_load_header (E : env) (ino : nat) : M (option (params * N)) :=
  s <- fd_size E ino ;;
  match s with
  | None => ret None
  | Some size =>
      if size <? CA_HEADER_LEN + CA_TABLE_MIN_LEN then ret None
      else if negb ((size - CA_HEADER_LEN - CA_TABLE_MIN_LEN) mod CA_TABLE_ENTRY_LEN =? 0) then ret None
      else
        let n_entries := (size - CA_HEADER_LEN - CA_TABLE_MIN_LEN) / CA_TABLE_ENTRY_LEN in
        p <- load_index_header ino 0 ;;
        match p with
        | None => ret None
        | Some p =>
            ok <- validate_table_header ino CA_HEADER_LEN ;;
            if negb (ok : bool) then ret None
            else
              ok <- validate_table_footer ino n_entries ;;
              ret (if (ok : bool) then Some (p, n_entries) else None)
        end
  end.

Section Iterate.
Context {A : Type}.
(** The callback: 0 = [true], negative = [false]; [A] is the state it works on. *)
Variable cb : N -> N -> bytes -> A -> M (bool * A).

(** caibx.c:196-237: [k] entries are left, the next one is number [i]. *)
Fixpoint iterate_loop (ino : nat) (p : params) (n_entries : N) (k : nat) (i : N)
    (last_offset : N) (a : A) : M (bool * A) :=
  match k with
  | O => ret (true, a)
  | S k' =>
      '(ok, buf) <- readall ino (CA_HEADER_LEN + CA_TABLE_HEADER_LEN + i * CA_TABLE_ENTRY_LEN)
                            CA_TABLE_ENTRY_LEN ;;
      if negb (ok : bool) then ret (false, a) else
      let offset := unp64le buf in
      let len := (offset + SIZE_MOD - last_offset) mod SIZE_MOD in
      let id := skipn 8 buf in
      if negb ((len <? p_min p) && (i + 1 <? n_entries))
         && (p_max p <? len) && (UINT32_MAX <? len)
      then iterate_loop ino p n_entries k' (i + 1) last_offset a      (* line 229 *)
      else
        '(ok, a) <- cb last_offset (len mod M32) id a ;;
        if negb (ok : bool) then ret (false, a)
        else iterate_loop ino p n_entries k' (i + 1) offset a
  end.

(** caibx.c:184-240 [caibx_iterate_entries] *)
Definition caibx_iterate_entries (ino : nat) (p : params) (n_entries : N) (a : A) : M (bool * A) :=
  iterate_loop ino p n_entries (N.to_nat n_entries) 0 0 a.
End Iterate.
