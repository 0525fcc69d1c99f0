(** When casync does what csn does (C77). *)
From Verif Require Import Base Utils MainProg SpecRun.
Local Open Scope N_scope.

(** A casync command line that asks for an extraction with options that are all understood:
    the options [os] and the other words, of which the first is "extract". *)
Definition extraction (argv : list bytes) (os : list optres) : Prop :=
  beq (basename (nth 0 argv [])) (bs "casync") = true /\ (3 <= length argv)%nat /\
  exists ns, getopt_all (skipn 1 argv) = (os, ns) /\ (3 <= length ns)%nat /\ nth 0 ns [] = bs "extract" /\
    ~ In OptHelp os /\ ~ In OptBad os.
(** The same request made to csn. *)
Definition as_csn (argv : list bytes) (os : list optres) : list bytes :=
  bs "csn" :: nth (length argv - 2) argv [] :: nth (length argv - 1) argv [] :: store_opts os.
(** The number of slots casync reserves for stores (main.c:228). *)
Definition casync_slots (argv : list bytes) : nat := ((length argv - 4) / 2 + 1)%nat.
(** The variable that selects the kernel's hash, and the same surroundings with it set to [v]. *)
Definition DRIVER : bytes := bs "CSN_KCAPI_DRIVER".
Definition with_driver (v : option bytes) (E : env) : env :=
  mkEnv (e_H E) (e_qsort E) (e_bsearch E) (e_zstep E) (e_server E) (e_open E) (e_open_rw E) (e_kind E)
    (fun x => if beq x DRIVER then v else e_getenv E x) (e_kcapi_ok E) (e_http_ok E) (e_interactive E).
(** The argument has the name of the variable in it (a key could be taken from it: "encrypt=env:..."). *)
Definition mentions (arg : bytes) : Prop := exists a b, arg = a ++ DRIVER ++ b.
