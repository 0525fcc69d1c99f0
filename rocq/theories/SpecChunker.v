(** Specification of content-defined chunking: boundaries as a function of the content only. *)
From Verif Require Import Base Discr Chunker.

(** Rotation of a 32-bit word, by any amount. *)
Definition rot (x : N) (n : nat) : N :=
  let k := N.of_nat (n mod 32) in ((x * 2 ^ k) mod 2 ^ 32 + x / 2 ^ (32 - k))%N.

(** Buzhash of a window, from scratch: the table entry of every byte rotated by its distance
    from the end ([buz] is the published table). *)
Fixpoint buzhash (w : bytes) : N :=
  match w with
  | [] => 0%N
  | b :: w' => N.lxor (rot (buz b) (length w')) (buzhash w')
  end.

(** The last 48 bytes. *)
Definition last48 (d : bytes) : bytes := skipn (length d - 48) d.

(** Chunk sizes [p] and discriminator [D]: may a chunk with contents [d] end here? *)
Definition cut_here (p : params) (D : N) (d : bytes) : bool :=
  ((p_max p <=? blen d) || ((p_min p <=? blen d) && (buzhash (last48 d) mod D =? D - 1)))%N.

(** First boundary in [d], not before 48 bytes. *)
Definition first_cut (p : params) (D : N) (d : bytes) : option nat :=
  find (fun n => cut_here p D (firstn n d)) (seq 48 (S (length d) - 48)).

Fixpoint chunks_n (p : params) (D : N) (fuel : nat) (d : bytes) : list bytes :=
  match fuel with
  | O => []
  | S k =>
      match d with
      | [] => []
      | _ => match first_cut p D d with
             | None => [d]
             | Some n => firstn n d :: chunks_n p D k (skipn n d)
             end
      end
  end.
Definition chunks (p : params) (D : N) (d : bytes) : list bytes := chunks_n p D (length d) d.

(** The discriminator belonging to the parameters. *)
Definition disc_of (p : params) (D : N) : Prop := discriminator_from_avg (p_avg p) = Some D /\ D <> 0%N.

(** What a scan should report: consecutive positions, lengths and ids. *)
Fixpoint tiles (E : env) (off : N) (l : list bytes) : list (N * N * bytes) :=
  match l with
  | [] => []
  | c :: r => (off, blen c, e_H E c) :: tiles E (off + blen c) r
  end.

(** A callback that records what it is called with and succeeds. *)
Definition record (off len : N) (id : bytes) (log : list (N * N * bytes)) : M (bool * list (N * N * bytes)) :=
  ret (true, log ++ [(off, len, id)]).

(** Feeding a chunker with buffers of any sizes: the loop of chunker_scan_fd (chunker.c:235-281) with the
    buffers in place of the reads. *)
Fixpoint scan_bufs (E : env) (pieces : list bytes) (st : scan_st) : M (bool * scan_st) :=
  match pieces with
  | [] => ret (true, st)
  | d :: r =>
      '(ok, st) <- scan_buf record E (S (length d)) d st ;;
      if negb (ok : bool) then ret (false, st) else scan_bufs E r st
  end.
Definition scan_pieces (E : env) (p : params) (pieces : list bytes) : M (list (N * N * bytes)) :=
  c <- lift (chunker_init p) ;;
  '(_, st) <- scan_bufs E pieces (mkScan c 0 0 []) ;;
  ret (if (sc_off st =? sc_last st)%N then sc_arg st
       else sc_arg st ++ [(sc_last st, (sc_off st - sc_last st)%N, chunker_get_id E (sc_c st))]).

(** States of a chunker that was initialised and then used: [reached p c d] if [d] is what it has
    consumed since initialisation or the last reset. *)
Inductive reached (p : params) : chunker -> bytes -> Prop :=
| reached_init c : chunker_init p = Ok c -> reached p c []
| reached_more c d buf c' : reached p c d -> chunker_scan c buf = Ok (None, c') -> reached p c' (d ++ buf)
| reached_cut c d buf n c' : reached p c d -> chunker_scan c buf = Ok (Some n, c') -> reached p c' (d ++ firstn n buf)
| reached_reset c d : reached p c d -> reached p (chunker_reset c) [].

(** A boundary falls at the end of [a]. *)
Definition boundary_at_end (p : params) (D : N) (a : bytes) : Prop :=
  a = [] \/ exists l c, chunks p D a = l ++ [c] /\ (48 <= length c)%nat /\ cut_here p D c = true.
