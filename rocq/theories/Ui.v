(** Model of /repo/ui.c. *)
From Verif Require Import Base Utils.
Local Open Scope N_scope.

Definition PROGRESS_BAR_LEN : nat := 60.              (* ui.c:9 *)

(** ui.c:18-22: the bar for a percentage (a uint8_t) *)
Definition progress_bar (percent : N) : bytes :=
  let tip := percent * 60 / 100 in
  map (fun i => if N.of_nat i <? tip then 61 else 32) (seq 0 PROGRESS_BAR_LEN).

(** decimal digits of n, at least one (for "%d" with 0 <= n < 1000) *)
Definition dec3 (n : N) : bytes :=
  if n <? 10 then [n + 48]
  else if n <? 100 then [n / 10 + 48; n mod 10 + 48]
  else [n / 100 + 48; n / 10 mod 10 + 48; n mod 10 + 48].
Definition pad3 (s : bytes) : bytes := repeat 32 (3 - length s) ++ s.

Definition spinner : bytes := [45; 92; 124; 47; 47].  (* ui.c:13 "-\\|//" *)

(** ui.c:11-30 [show_progress]: what is printed and the new status, a uint32_t *)
Definition show_progress (percent status : N) : bytes * N :=
  ([27] ++ bs "[0G[" ++ [nth (N.to_nat (status mod 5)) spinner 0] ++ bs "] |"
   ++ progress_bar percent ++ bs "| " ++ pad3 (dec3 percent) ++ bs "%"
   ++ (if percent =? 100 then [10] else []),
   (status + 1) mod M32).

(** main.c:80: the argument of show_progress, where handled_entries is a uint32_t that has
    just been incremented to [handled], n_entries is a size_t and the parameter a uint8_t. *)
Definition main_percent (handled n_entries : N) : N :=
  (100 * handled) mod M32 / n_entries mod 256.

(** patchdd.c:92: the product is an unsigned long long *)
Definition patchdd_percent (offset src_size : N) : N := (100 * offset) mod 18446744073709551616 / src_size mod 256.
