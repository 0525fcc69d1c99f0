(** An old and a new image that differ in one place (C82). *)
From Verif Require Import Base Chunker SpecBasic SpecChunker.
Local Open Scope N_scope.

(** The new image arises from the old one by replacing [y] with [x] after [a]; the chunking has a boundary before
    the replaced part and at the ends of [x] and of [y].  Either part may be empty, so insertions and deletions of
    whole regions are included.  Any change to an image can be written like this when it is followed somewhere by
    one boundary that the chunkings of both images share, [a] being the chunks that were complete before the first
    changed byte. *)
Record edit (p : params) (D : N) (a x y b old new : bytes) : Prop := {
  edit_old : old = a ++ y ++ b;
  edit_new : new = a ++ x ++ b;
  edit_a : boundary_at_end p D a;
  edit_x : boundary_at_end p D x;
  edit_y : boundary_at_end p D y }.

(** The least size of a chunk that is not the last one of an image. *)
Definition least_chunk (p : params) : N := N.max 48 (N.min (p_min p) (p_max p)).
