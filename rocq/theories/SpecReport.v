(** What is said about the messages of a run: what a line shows, and how the numbers of a run add up. *)
From Verif Require Import Base SpecBasic SpecStore SpecCaibx SpecMain SpecStats Log MainProg.
Local Open Scope N_scope.

(** The output contains [part]. *)
Definition prints (part : bytes) (out : option bytes) : Prop := exists a b, out = Some (a ++ part ++ b).
(** The line for a store. *)
Definition answered_text (h : N) (name : bytes) : bytes := bs "    " ++ digits 10 h ++ bs " answered by store " ++ name.
(** What a store is called (doc/csn.1.scd says nothing; target.c:104, store-http.c:473, store-local.c:210). *)
Definition called (target : bytes) (a : store_arg) : bytes :=
  match a with ArgTarget => bs "target:" ++ target | ArgHttp url => url | ArgLocal path _ => path end.
(** How a key is given in the argument of an HTTP store. *)
Definition key_param : bytes := bs "#encrypt=key:".

(** With the first [k] entries taken from the target, entry [i] has to be fetched unless it repeats its predecessor. *)
Definition to_fetch (f : bytes) (k i : nat) : bool := Nat.eqb i k || negb (beq (ent_id f (i - 1)) (ent_id f i)).
Definition n_to_fetch (f : bytes) (k n : nat) : nat := length (filter (to_fetch f k) (seq k (n - k))).
(** The chunks that the stores of a chain delivered. *)
Definition all_delivered (stores : nat) (tr : list tev) : N := fold_right (fun i s => delivered i tr + s) 0 (seq 0 stores).
