(** What it means that a program leaves nothing behind: vocabulary for the theorems about
    Res.v. *)
From Verif Require Import Base Utils Encrypt Res SpecBasic.
Local Open Scope nat_scope.
Local Open Scope res_scope.

(** How many objects of a kind there are. *)
Definition count (k : rkind) (l : list robj) : nat :=
  length (filter (fun o => rkind_eqb (o_kind o) k) l).
(** [m], whatever the system answers, comes to an end and does nothing undefined; [P]
    relates the result to the objects left, the objects given back and the largest number
    of descriptors open. *)
Definition always {A} (m : RM A) (P : A -> list robj -> list robj -> nat -> Prop) : Prop :=
  forall a, exists r st, m (r_init a) = (Ok r, st) /\ P r (r_live st) (r_gone st) (r_peak st).

Definition all_zero (d : bytes) : Prop := Forall (fun b => b = 0%N) d.

(** The text of the key: given directly, or the first line(s) of the file. *)
Definition src_text (s : rsrc) : bytes :=
  match s with SText t => t | SFile c => chomp (cstr c) | SNone => [] end.

(** [d] holds what remains of a key file [c] with the key text [s] after wiping: zeros in the
    place of the text and of the byte that ends it. *)
Definition text_wiped (c s d : bytes) : Prop :=
  d = repeat 0%N (S (length s)) ++ skipn (S (length s)) (c ++ [0%N]).

(** How many encryption parameters there are. *)
Definition encrypts (ps : list rparam) : nat :=
  length (filter (fun p => match p with PEncrypt _ => true | PBad => false end) ps).

(** The life of an HTTP store: made, asked any number of times, freed.  The result says
    whether the store came into being. *)
Fixpoint http_gets (s : rhttp) (l : list (bytes * nat)) : RM rhttp :=
  match l with
  | [] => rret s
  | (nonce, segs) :: l => r <~ http_get s nonce segs ;; http_gets (snd r) l
  end.
Definition http_life (arg : bytes) (ps : list rparam) (l : list (bytes * nat)) : RM bool :=
  r <~ http_new arg ps ;;
  match r with
  | None => rret false
  | Some s => s <~ http_gets s l ;; http_free s ;;~ rret true
  end.
(** The life of a local store; a store that fails is not asked again (store.c:38-48). *)
Fixpoint local_gets (s : rlocal) (n : nat) : RM rlocal :=
  match n with
  | O => rret s
  | S n => r <~ local_get s ;; if fst r then local_gets (snd r) n else rret (snd r)
  end.
Definition local_life (special index : bool) (n : nat) : RM bool :=
  r <~ local_new special index ;;
  match r with
  | None => rret false
  | Some s => s <~ local_gets s n ;; local_free s ;;~ rret true
  end.

(** Arguments of a run. *)
Definition is_target (a : rarg) : bool := match a with ATarget => true | _ => false end.
Definition is_local (a : rarg) : bool := match a with ALocal _ _ => true | _ => false end.
(** A local store that is neither a regular file nor a block device, used with an index. *)
Definition is_odd (a : rarg) : bool := match a with ALocal true true => true | _ => false end.
Definition n_local (l : list rarg) : nat := length (filter is_local l).
(** Cipher contexts replaced by later ones. *)
Definition n_lost (l : list rarg) : nat :=
  fold_right Nat.add 0 (map (fun a => match a with AHttp _ ps => encrypts ps - 1 | _ => 0 end) l).
