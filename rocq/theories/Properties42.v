(** The transfers that stores start (C108).  Statements only. *)
From Verif Require Import Base Lib Utils Sha StoreHttp Curl SpecCurl PfCurl Ex42.
Local Open Scope N_scope.

(** Whatever stores are made, asked and freed in whatever order, and whichever calls of the library fail: nothing is used that does not exist,
    every transfer has the options it should have, and no call starts more than ten. *)
Theorem C108_transfers ops answers : exists st w, run_ops ops [] (fresh answers) = Some (st, w) /\
  Forall (proper ops) (c_log w) /\ forall c, (n_call c (c_log w) <= 10)%nat.
Proof. exact (transfers_proper ops answers). Qed.
Print Assumptions C108_transfers.
Example C108_transfers_met : log42 answers42 =
  Some [(0%nat, bs "http://a/abab/abababa", 1%nat); (0%nat, bs "http://a/abab/abababa", 1%nat); (1%nat, bs "http://b/abab/abababa", 2%nat)].
Proof. exact meets42. Qed.

(** If no call fails there is exactly one transfer for each request to a store that exists, in the order of the requests. *)
Theorem C108_all ops : exists st w, run_ops ops [] (fresh []) = Some (st, w) /\ map (fun x => (x_store x, x_id x)) (rev (c_log w)) = requests ops [].
Proof. exact (transfers_all ops). Qed.
Print Assumptions C108_all.
Example C108_all_met : requests ops42 [] = [(0%nat, id42); (1%nat, id42); (1%nat, id42)].
Proof. exact all42. Qed.
