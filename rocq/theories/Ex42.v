(** Two stores, of which one is slow to answer and one is asked again after being freed (C108). *)
From Verif Require Import Base Lib Utils Sha StoreHttp Curl SpecCurl.
Local Open Scope N_scope.

Definition plain42 : hstore := mkHStore (bs "http://a") 100 0 0 None.
Definition coded42 : hstore := mkHStore (bs "http://b") 100 0 0 (Some [1]).
Definition id42 : bytes := repeat 171 32.
Definition ops42 : list cop := [CNew plain42; CNew coded42; CGet 0 id42; CGet 1 id42; CFree 0; CGet 0 id42; CGet 1 id42].
(** Both stores are made (14 calls); the first request is tried twice; the URL of the last one cannot be set. *)
Definition answers42 : list (bool * bool) := repeat (true, true) 14 ++ [(true, true); (true, true); (false, false); (true, true)] ++ repeat (true, true) 4 ++ [(false, false)].
Definition log42 (a : list (bool * bool)) : option (list (nat * bytes * nat)) :=
  match run_ops ops42 [] (fresh a) with
  | Some (_, w) => Some (map (fun x => (x_store x, match x_opts x O_URL with Some (VStr u) => firstn 21 u | _ => [] end, x_call x)) (rev (c_log w)))
  | None => None
  end.
Lemma meets42 : log42 answers42 = Some [(0%nat, bs "http://a/abab/abababa", 1%nat); (0%nat, bs "http://a/abab/abababa", 1%nat); (1%nat, bs "http://b/abab/abababa", 2%nat)].
Proof. vm_compute. reflexivity. Qed.
Lemma all42 : requests ops42 [] = [(0%nat, id42); (1%nat, id42); (1%nat, id42)].
Proof. vm_compute. reflexivity. Qed.
