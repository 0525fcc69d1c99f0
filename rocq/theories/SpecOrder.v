(** Reading the trace of a run: who was asked for what, and in which order (C08, C09). *)
From Verif Require Import Base Chunker StoreLocal StoreHttp Chain MainProg SpecBasic.
Local Open Scope N_scope.

(** Reading a trace (oldest event first) with a checker that may reject an event. *)
Fixpoint scan {S : Type} (step : S -> tev -> option S) (s : S) (tr : list tev) : option S :=
  match tr with
  | [] => Some s
  | ev :: tr' => match step s ev with Some s' => scan step s' tr' | None => None end
  end.
Definition accepted {S : Type} (step : S -> tev -> option S) (s : S) (w w' : world) : Prop :=
  exists tr s', w_trace w' = tr ++ w_trace w /\ scan step s (rev tr) = Some s'.

(** ** Order of requests (C08)
    [Between lo id]: the stores before [lo] have been asked for [id] in vain; [lo = 0] if the last
    request was answered.  [Asking i id]: store [i] is being asked for [id]. *)
Inductive phase : Type := Between (lo : nat) (id : bytes) | Asking (i : nat) (id : bytes).
Definition alive (failed : list nat) (j : nat) : bool := negb (existsb (Nat.eqb j) failed).
Definition has_data (r : option N) : bool := match r with Some k => 0 <? k | None => false end.

(** With [n] stores, of which [failed] have reported failure: the next store to be asked is the first
    one from [lo] on that has not failed, for the same id; if there is none, a new request begins
    with the first store that has not failed.  A store that reports failure is put on the list. *)
Definition order_step (n : nat) (s : list nat * phase) (ev : tev) : option (list nat * phase) :=
  let '(failed, ph) := s in
  match ph, ev with
  | Between lo cur, TQuery i id =>
      match find (alive failed) (seq lo (n - lo)) with
      | Some j => if Nat.eqb i j && (Nat.eqb lo 0 || beq id cur) then Some (failed, Asking i id) else None
      | None => match find (alive failed) (seq 0 n) with
                | Some j => if Nat.eqb i j then Some (failed, Asking i id) else None
                | None => None
                end
      end
  | Between _ _, TAnswer _ _ => None
  | Asking i id, TAnswer j r =>
      if Nat.eqb i j then
        Some (match r with None => i :: failed | Some _ => failed end, Between (if has_data r then O else S i) id)
      else None
  | Asking _ _, TQuery _ _ => None
  | _, _ => Some s
  end.
Definition in_order (n : nat) : world -> world -> Prop := accepted (order_step n) ([], Between 0 []).

(** ** No chunk is fetched twice in a row (C09)
    The state is the id asked for last and whether it was answered with data. *)
Definition once_step (s : bytes * bool) (ev : tev) : option (bytes * bool) :=
  match ev with
  | TQuery _ id => if snd s && beq (fst s) id then None else Some (id, false)
  | TAnswer _ r => Some (fst s, has_data r)
  | _ => Some s
  end.
Definition fetched_once : world -> world -> Prop := accepted once_step ([], false).


(** ** What a store argument stands for (C49) *)
Inductive documented (target arg : bytes) : store_arg -> Prop :=
| doc_target : arg = target -> documented target arg ArgTarget
| doc_http rest : arg <> target -> arg = bs "http" ++ rest -> documented target arg (ArgHttp arg)
| doc_local : arg <> target -> (forall rest, arg <> bs "http" ++ rest) -> ~ In 58 arg -> documented target arg (ArgLocal arg None)
| doc_indexed path index : arg <> target -> (forall rest, arg <> bs "http" ++ rest) -> arg = path ++ [58] ++ index -> ~ In 58 path ->
    documented target arg (ArgLocal path (Some index)).
(** The store made for it: the target itself, or what the constructor of the kind returned. *)
Definition store_for (E : env) (cp : params) (a : store_arg) (ss : substore) : Prop :=
  ss_active ss = true /\
  match a, ss_store ss with
  | ArgTarget, STarget => True
  | ArgHttp url, SHttp hs => exists w w', store_http_new E url w = (Ok (Some hs), w')
  | ArgLocal path ip, SLocal ls => exists w w', store_local_new E path ip cp w = (Ok (Some ls), w')
  | _, _ => False
  end.

(** The result of a request is the answer with data that ended it, or "not found" if there was none. *)
Definition answered_by (w w' : world) (r : option N) : Prop :=
  exists tr, w_trace w' = tr ++ w_trace w /\
    ((r = Some 0 /\ forall i a, In (TAnswer i a) tr -> has_data a = false) \/
     (exists i k tr', tr = TAnswer i (Some k) :: tr' /\ 0 < k /\ r = Some k)).

(** ** Requests to the stores after store [k] (C10) *)
Definition asked_after (k : nat) (tr : list tev) : list (nat * bytes) :=
  flat_map (fun ev => match ev with TQuery p id => if Nat.ltb k p then [(p, id)] else [] | _ => [] end) tr.
