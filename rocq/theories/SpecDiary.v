(** What a run asks for and what it writes, in order (C96). *)
From Verif Require Import Base SpecBasic SpecCaibx SpecMain SpecRun SpecReport.
Local Open Scope N_scope.

(** A request for a chunk, or data handed over to be written to the target. *)
Inductive act : Type := Asks (id : bytes) | Puts (off : N) (data : bytes).
Definition act_of (ev : tev) : list act :=
  match ev with TQuery _ id => [Asks id] | TPut _ off d => [Puts off d] | _ => [] end.
(** Several stores asked for the same chunk, one after the other, count as one request. *)
Fixpoint merged (l : list act) : list act :=
  match l with
  | Asks a :: ((Asks b :: _) as l') => if beq a b then merged l' else Asks a :: merged l'
  | x :: l' => x :: merged l'
  | [] => []
  end.
(** The diary of a trace (the newest event of a trace comes first). *)
Definition diary (tr : list tev) : list act := merged (flat_map act_of (rev tr)).

(** What is to be done when the first [k] of [n] entries are in the target already, and the outcome is [g]: each of the other
    entries is asked for, unless it repeats its predecessor, and then written to its place. *)
Definition to_do (f : bytes) (k n : nat) (g : bytes) : list act :=
  flat_map (fun i => (if to_fetch f k i then [Asks (ent_id f i)] else []) ++ [Puts (ent_start f i) (ent_slice f i g)]) (seq k (n - k)).

(** The same for the pieces [ps] of an image that come at offset [off]; [last] is the id asked for before. *)
Fixpoint plan (E : env) (last : option bytes) (off : N) (ps : list bytes) : list act :=
  match ps with
  | [] => []
  | P :: ps' =>
      (if match last with Some l => beq l (e_H E P) | None => false end then [] else [Asks (e_H E P)]) ++
      Puts off P :: plan E (Some (e_H E P)) (off + blen P) ps'
  end.
