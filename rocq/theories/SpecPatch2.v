(** What patchdd writes, in order, and what several runs of it write together (C103). *)
From Verif Require Import Base Lib Utils MainProg Patchdd SpecBasic SpecRun SpecPatch SpecFrontier SpecRepeat.
Local Open Scope N_scope.

(** The writes of a run, oldest first. *)
Definition writes (tr : list tev) : list (N * bytes) := flat_map (fun ev => match ev with TWrite _ o x => [(o, x)] | _ => [] end) (rev tr).
(** Going forward from [lo] to no further than [hi], never over the same place twice. *)
Fixpoint ascending (lo : N) (l : list (N * bytes)) (hi : N) : Prop :=
  match l with [] => lo <= hi | (o, x) :: l' => lo <= o /\ ascending (o + blen x) l' hi end.
Definition amount (tr : list tev) : nat := total (fun w => length (snd w)) (writes tr).

(** Runs of patchdd in turn with the source [s], each of which finds the destination as the one before it left it. *)
Definition pat_end (a : attempt) : world := snd (patchdd_main (at_env a) (at_argv a) (at_world a)).
Fixpoint patchings (s g : bytes) (l : list attempt) (g' : bytes) : Prop :=
  match l with
  | [] => g' = g
  | a :: l' => (exists src, src_of (at_env a) (at_argv a) = Some src /\ w_files (at_world a) src = s) /\
      dst_of (at_env a) (at_argv a) = Some (at_target a) /\ w_files (at_world a) (at_target a) = g /\
      patchings s (w_files (pat_end a) (at_target a)) l' g'
  end.
