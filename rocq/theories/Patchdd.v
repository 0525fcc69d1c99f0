(** Model of /repo/patchdd.c. *)
From Verif Require Import Base Utils Ui.
Local Open Scope N_scope.

Definition TRANSFER_SIZE : N := 1048576.              (* patchdd.c:13 *)

(** patchdd.c:15-24 [memcmp_offset] on buffers of equal length *)
Fixpoint memcmp_offset (a b : bytes) : nat :=
  match a, b with
  | x :: a', y :: b' => if x =? y then S (memcmp_offset a' b') else O
  | _, _ => O
  end.

(** fsync: one I/O event *)
Definition fsync (ino : nat) : M bool := fun w =>
  match w_io w with
  | [] => (Halt, w)
  | IoErr :: ev | IoIntr :: ev => (Ok false, set_io ev w)
  | _ :: ev => (Ok true, add_trace (TSync ino) (set_io ev w))
  end.

(** patchdd.c:74-93: [fuel] bounds the number of blocks left; every iteration advances [offset]
    by at least one byte, so 1 + src_size - offset is never used up. *)
Fixpoint patch_loop (E : env) (fuel : nat) (src dst : nat) (src_size offset skipped : N)
  : M (option N) :=
  match fuel with
  | O => halt
  | S fuel' =>
      if src_size <=? offset then ret (Some skipped) else
      let to_read := N.min (src_size - offset) TRANSFER_SIZE in
      '(ok, a) <- preadall src to_read offset ;;
      if negb (ok : bool) then ret None else
      '(ok, b) <- preadall dst to_read offset ;;
      if negb (ok : bool) then ret None else
      let first_diff := memcmp_offset a b in
      ok <- pwriteall E dst (skipn first_diff a) (offset + N.of_nat first_diff) ;;
      if negb (ok : bool) then ret None else
      (if e_interactive E then trace (TProgress (patchdd_percent (offset + to_read) src_size))
       else ret tt) ;;;
      patch_loop E fuel' src dst src_size (offset + to_read) (skipped + N.of_nat first_diff)
  end.

(** patchdd.c:26-107 [main]: exit status *)
Definition patchdd_main (E : env) (argv : list bytes) : M N :=
  match argv with
  | _ :: src_path :: dst_path :: _ =>
      if beq src_path (bs "-h") || beq src_path (bs "--help") then ret 1 else
      match e_open E src_path with
      | None => ret 1
      | Some src =>
          match e_open_rw E dst_path with
          | None => ret 1
          | Some dst =>
              s <- fd_size E src ;;
              match s with
              | None => ret 1
              | Some src_size =>
                  d <- fd_size E dst ;;
                  match d with
                  | None => ret 1
                  | Some dst_size =>
                      if dst_size <? src_size then ret 1 else
                      r <- patch_loop E (S (N.to_nat src_size)) src dst src_size 0 0 ;;
                      match r with
                      | None => ret 1
                      | Some _ =>
                          ok <- fsync dst ;;
                          ret (if (ok : bool) then 0 else 1)
                      end
                  end
              end
          end
      end
  | _ => ret 1
  end.
