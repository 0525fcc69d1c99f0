(** The requests that stores should make (C108). *)
From Verif Require Import Base Utils Sha StoreHttp SpecBasic SpecHttp Curl.
Local Open Scope N_scope.

(** The stores that a program makes *)
Fixpoint news (l : list cop) : list hstore :=
  match l with [] => [] | CNew hs :: l => hs :: news l | _ :: l => news l end.

(** A transfer as the manual and the set-up of the store want it: the [x_store]th store [hs] was asked for the chunk, the URL is that of the
    chunk at this store, data goes to the store's function and to the context of the request that is running, redirects are followed, a transfer of
    less than 10 bytes a second ends after 15 seconds, and errors are described in the store's own buffer. *)
Record proper (ops : list cop) (x : transfer) : Prop := mkProper {
  pr_asked : In (CGet (x_store x) (x_id x)) ops;
  pr_url : exists hs url, nth_error (news ops) (x_store x) = Some hs /\ x_opts x O_URL = Some (VStr url) /\
    (length (x_id x) = 32%nat -> bytes_ok (x_id x) -> casync_url (hs_base hs) (x_id x) url (match hs_key hs with Some _ => true | None => false end));
  pr_fun : x_opts x O_WRITEFUNCTION = Some VDataCb;
  pr_data : x_opts x O_WRITEDATA = Some (VCtx (x_call x));
  pr_follow : x_opts x O_FOLLOWLOCATION = Some (VLong 1);
  pr_time : x_opts x O_LOW_SPEED_TIME = Some (VLong 15);
  pr_limit : x_opts x O_LOW_SPEED_LIMIT = Some (VLong 10);
  pr_err : x_opts x O_ERRORBUFFER = Some (VErrBuf (x_store x)) }.

(** The requests to stores that have been made and not been freed; [alive] says which. *)
Fixpoint requests (l : list cop) (alive : list bool) : list (nat * bytes) :=
  match l with
  | [] => []
  | CNew _ :: l => requests l (alive ++ [true])
  | CGet i id :: l => if nth i alive false then (i, id) :: requests l alive else requests l alive
  | CFree i :: l => requests l (map (fun j => nth j alive false && negb (Nat.eqb j i)) (seq 0 (length alive)))
  end.
(** How many transfers there have been for each call with a context *)
Fixpoint n_call (c : nat) (l : list transfer) : nat :=
  match l with [] => 0%nat | x :: l => if Nat.eqb (x_call x) c then S (n_call c l) else n_call c l end.
