(** What is left after power failures, several of them if need be (C106). *)
From Verif Require Import Base Lib Utils MainProg Patchdd SpecBasic SpecEnv SpecCaibx SpecMain SpecRun SpecPatch SpecFrontier SpecRepeat SpecPatch2.
Local Open Scope N_scope.

(** What an attempt that went from world [w] to world [w'] may leave in the file [ino]: what it wrote, or what survives if the power is cut. *)
Definition leaves (ino : nat) (w w' : world) (g : bytes) : Prop :=
  g = w_files w' ino \/ exists tr, run_trace w w' tr /\ survives ino (rev tr) (w_files w ino) g.

(** Runs of patchdd in turn with the source [s].  Each of them may end in any way, and the power may fail at its end. *)
Fixpoint patch_cuts (s g : bytes) (l : list attempt) (g' : bytes) : Prop :=
  match l with
  | [] => g' = g
  | a :: l' => (exists src, src_of (at_env a) (at_argv a) = Some src /\ w_files (at_world a) src = s) /\
      dst_of (at_env a) (at_argv a) = Some (at_target a) /\ w_files (at_world a) (at_target a) = g /\
      exists g1, leaves (at_target a) (at_world a) (pat_end a) g1 /\ patch_cuts s g1 l' g'
  end.

(** Runs of csn or casync in turn for the image made of [pieces], likewise. *)
Fixpoint sync_cuts (pieces : list bytes) (g : bytes) (l : list attempt) (g' : bytes) : Prop :=
  match l with
  | [] => g' = g
  | a :: l' => sane (at_env a) (at_argv a) (at_world a) /\ described (at_env a) (at_argv a) (at_world a) pieces /\
      e_open_rw (at_env a) (cmd_target (at_argv a)) = Some (at_target a) /\ w_files (at_world a) (at_target a) = g /\
      exists g1, leaves (at_target a) (at_world a) (at_end a) g1 /\ sync_cuts pieces g1 l' g'
  end.
(** Every byte is the old one, or the image's at the same place, or a zero in the part by which the file has grown.  Nothing changes behind the end of the image. *)
Definition blended (image g g' : bytes) : Prop :=
  forall k, byte_of g' k = byte_of g k \/
    (k < length image)%nat /\ (byte_of g' k = byte_of image k \/ (length g <= k)%nat /\ byte_of g' k = Some 0).
(** In some attempt data was written that has the hash of a piece of the image but is not it. *)
Definition deceived (pieces : list bytes) (l : list attempt) : Prop :=
  exists a tr, In a l /\ run_trace (at_world a) (at_end a) tr /\
    collision (at_env a) pieces (fun y => exists o D, In (TPut (at_target a) o D) tr /\ end_piece y D).
