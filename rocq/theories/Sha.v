(** Model of /repo/sha.c and of chunk_calculate_id (/repo/chunk.h). *)
From Verif Require Import Base Utils.

(** sha.c:24-71 [sha_kcapi_init] *)
Definition sha_kcapi_init (E : env) : M bool := fun w =>
  if e_kcapi_ok E then (Ok true, set_kcapi true (w_kev w) w) else (Ok false, w).

(** sha.c:87-101: the send loop.  [inl (Some rest)]: "goto disable" with [data]/[len]
    pointing at the bytes not yet sent; [inl None]: everything sent; [inr tt]: the schedule
    ends. *)
Fixpoint kc_send (data : bytes) (kev0 : list kev) : (option bytes + unit) * list kev :=
  match data with
  | [] => (inl None, kev0)
  | _ :: _ =>
    match kev0 with
    | [] => (inr tt, [])
    | KIntr :: r => kc_send data r
    | KErr :: r => (inl (Some data), r)
    | KN k :: r | KShort k :: r => kc_send (skipn (Nat.min (S k) (length data)) data) r
    end
  end.

(** sha.c:103-117: the recv; [inl true]: the digest was received; [inl false]: "goto disable". *)
Fixpoint kc_recv (kev0 : list kev) : (bool + unit) * list kev :=
  match kev0 with
  | [] => (inr tt, [])
  | KIntr :: r => kc_recv r
  | KErr :: r => (inl false, r)
  | KShort _ :: r => (inl false, r)
  | KN _ :: r => (inl true, r)
  end.

(** sha.c:82-125 [sha_once].  It always returns 0 (OpenSSL's SHA256 does not
    fail with a non-NULL output buffer); the result is the digest stored.  The
    digest the kernel returns is that of the bytes it accepted, i.e. of all of
    [data].  Line 124 hashes [data]/[len] as lines 99-100 have left them. *)
Definition sha_once (E : env) (data : bytes) : M bytes := fun w =>
  if negb (w_kcapi w) then (Ok (e_H E data), w) else
  match kc_send data (w_kev w) with
  | (inr _, kv) => (Halt, set_kcapi true kv w)
  | (inl (Some rest), kv) => (Ok (e_H E rest), set_kcapi false kv w)
  | (inl None, kv) =>
      match kc_recv kv with
      | (inr _, kv) => (Halt, set_kcapi true kv w)
      | (inl true, kv) => (Ok (e_H E data), set_kcapi true kv w)
      | (inl false, kv) => (Ok (e_H E []), set_kcapi false kv w)
      end
  end.

(** chunk.h:14-17 [chunk_calculate_id] *)
Definition chunk_calculate_id (E : env) (data : bytes) : M bytes := sha_once E data.
