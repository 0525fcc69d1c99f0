(** Model of the counters that store_chain_free logs (store.c:68-73).

    Chain.v has no counters; the events of its trace determine them. *)
From Verif Require Import Base.
Local Open Scope N_scope.

(** The field [hits] of every slot of sc->stores; [None]: never initialised.
    store.c:91-97: at least one slot, from calloc. *)
Definition slots_new (hint : N) : list (option N) := repeat (Some 0) (N.to_nat (N.max 1 hint)).
(** store.c:115-129 [store_chain_append] with [n] stores in the chain: a full array is doubled
    with realloc, which initialises nothing; lines 127-129 set [s] and [active] only. *)
Definition slots_append (l : list (option N)) (n : nat) : list (option N) :=
  if Nat.leb (length l) n then l ++ repeat None (length l) else l.
(** After [n] stores have been appended. *)
Fixpoint slots_after (hint : N) (n : nat) : list (option N) :=
  match n with O => slots_new hint | S n => slots_append (slots_after hint n) n end.
(** store.c:50 substore->hits++ (a uint32_t) *)
Fixpoint bump (i : nat) (l : list (option N)) : list (option N) :=
  match l, i with
  | [], _ => []
  | h :: l, O => option_map (fun h => (h + 1) mod 2 ^ 32) h :: l
  | h :: l, S i => h :: bump i l
  end.
(** store.c:40-56: an answer counts when it has data.  The trace has the latest event first. *)
Definition count_ev (ev : tev) (l : list (option N)) : list (option N) :=
  match ev with
  | TAnswer i (Some k) => if 0 <? k then bump i l else l
  | _ => l
  end.
(** What store.c:70-73 prints for a chain of [n] stores made with [hint] after the events [tr]. *)
Definition report (hint : N) (n : nat) (tr : list tev) : list (option N) :=
  firstn n (fold_right count_ev (slots_after hint n) tr).
