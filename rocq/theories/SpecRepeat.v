(** What several runs ask for and write together (C102). *)
From Verif Require Import Base Lib Utils MainProg SpecBasic SpecEnv SpecCaibx SpecMain SpecRun SpecOrder SpecReport SpecSource SpecDiary SpecFrontier.
Local Open Scope N_scope.

Definition asks (l : list act) : nat := length (filter (fun a => match a with Asks _ => true | Puts _ _ => false end) l).
Definition puts (l : list act) : nat := length (filter (fun a => match a with Asks _ => false | Puts _ _ => true end) l).
Definition total {A} (f : A -> nat) (l : list A) : nat := fold_right (fun a s => (f a + s)%nat) 0%nat l.

(** Runs with the hash function [H] and the index [f] of [n] entries in turn, each of which finds the target as the one before it left it.  No read or write fails in them,
    but each of them may stop anywhere, and fail for any other reason. *)
Fixpoint continued (H : bytes -> bytes) (f : bytes) (n : nat) (g : bytes) (l : list attempt) (g' : bytes) : Prop :=
  match l with
  | [] => g' = g
  | a :: l' => e_H (at_env a) = H /\ sane (at_env a) (at_argv a) (at_world a) /\ good_index (at_env a) (at_argv a) (at_world a) /\
      hash_reliable (at_env a) (at_world a) /\ error_free (w_io (at_world a)) /\ the_index (at_env a) (at_argv a) (at_world a) f n /\
      e_open_rw (at_env a) (cmd_target (at_argv a)) = Some (at_target a) /\ w_files (at_world a) (at_target a) = g /\
      continued H f n (w_files (at_end a) (at_target a)) l' g'
  end.
