(** What is in the target when a run ends in whatever way (C101). *)
From Verif Require Import Base Lib Utils MainProg SpecBasic SpecCaibx SpecMain SpecRun SpecReport SpecDiary SpecOutline.
Local Open Scope N_scope.

(** The bytes of a file overwritten from a position on, the file being extended if need be. *)
Definition over (g : bytes) (off : nat) (d : bytes) : bytes := firstn off g ++ d ++ skipn (off + length d) g.
(** The file after everything noted has been written into it, in the order noted. *)
Definition laid (g : bytes) (l : list act) : bytes :=
  fold_left (fun g a => match a with Puts o d => over g (N.to_nat o) d | Asks _ => g end) l g.
(** The same, where of the last thing noted only a beginning may have been written. *)
Definition laid_by (g : bytes) (l : list act) (g' : bytes) : Prop :=
  g' = laid g l \/ exists l0 o d q, l = l0 ++ [Puts o d] /\ g' = over (laid g l0) (N.to_nat o) (firstn q d).
(** [g'] is [g] with its beginning replaced by a beginning of [image]. *)
Definition frontier (image g g' : bytes) : Prop :=
  exists p, (p <= length image)%nat /\ g' = firstn p image ++ skipn p g.

(** One attempt at a synchronisation: what it runs in, its command line, the state it starts in, and the target's file. *)
Record attempt : Type := mkAttempt { at_env : env; at_argv : list bytes; at_world : world; at_target : nat }.
Definition at_end (a : attempt) : world := snd (main (at_env a) (at_argv a) (at_world a)).
(** Attempts at the same image in turn, each of which finds the target as the one before it left it. *)
Fixpoint attempts (pieces : list bytes) (g : bytes) (l : list attempt) (g' : bytes) : Prop :=
  match l with
  | [] => g' = g
  | a :: l' => sane (at_env a) (at_argv a) (at_world a) /\ described (at_env a) (at_argv a) (at_world a) pieces /\
      e_open_rw (at_env a) (cmd_target (at_argv a)) = Some (at_target a) /\ w_files (at_world a) (at_target a) = g /\
      attempts pieces (w_files (at_end a) (at_target a)) l' g'
  end.
(** A hash collision shows in an attempt: a piece of the image collides with another, or with data that was in the target or was written to it. *)
Definition collides (pieces : list bytes) (a : attempt) : Prop :=
  exists tr, run_trace (at_world a) (at_end a) tr /\
    collision (at_env a) pieces (fun y => (exists o D, In (TPut (at_target a) o D) tr /\ end_piece y D) \/
                                          exists s l, end_piece y (slice s l (w_files (at_world a) (at_target a)))).
