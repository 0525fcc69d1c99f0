(** What the stores after the target are asked for, when the target is the first store (C97). *)
From Verif Require Import Base SpecBasic SpecCaibx SpecMain SpecRun SpecOrder.
Local Open Scope N_scope.

(** The requests that went past the first store, in order (the newest event of a trace comes first). *)
Definition passed_on (tr : list tev) : list bytes := map snd (rev (asked_after 0 tr)).
(** Several stores asked for the same chunk, one after the other, count as one request. *)
Fixpoint runs (l : list bytes) : list bytes :=
  match l with
  | a :: ((b :: _) as l') => if beq a b then runs l' else a :: runs l'
  | x :: l' => x :: runs l'
  | [] => []
  end.

(** Entry [i] is the first one with its id. *)
Definition is_new (f : bytes) (i : nat) : bool := negb (existsb (fun j => beq (ent_id f j) (ent_id f i)) (seq 0 i)).
(** The ids that occur for the first time in the entries from [k] to before [n]. *)
Definition new_ids (f : bytes) (k n : nat) : list bytes := map (ent_id f) (filter (is_new f) (seq k (n - k))).

(** The same for the pieces [ps] of an image; [seen] are the ids of those before. *)
Fixpoint novel (E : env) (seen : list bytes) (ps : list bytes) : list bytes :=
  match ps with
  | [] => []
  | P :: ps' => (if existsb (beq (e_H E P)) seen then [] else [e_H E P]) ++ novel E (e_H E P :: seen) ps'
  end.
