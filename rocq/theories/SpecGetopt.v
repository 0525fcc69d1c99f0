(** The command lines casync understands, written as a grammar (C77, C79). *)
From Verif Require Import Base Utils MainProg SpecRun SpecCasync.
Local Open Scope N_scope.

(** A word is anything that does not begin with "-", and "-" itself. *)
Definition word (a : bytes) : Prop := a = bs "-" \/ forall t, a <> 45 :: t.
(** The long options that take an argument; both of the first two name a store. *)
Definition opt_names : list bytes := [bs "help"; bs "store"; bs "seed"; bs "seed-output"].
(** [abbr] may be written for the option [full]: it is the name, or it begins no other name (and is none). *)
Definition stands_for (abbr full : bytes) : Prop :=
  In full opt_names /\ (abbr = full \/ (exists t, full = abbr ++ t) /\ forall other t, In other opt_names -> other = abbr ++ t -> other = full).
Definition store_option (a : bytes) : Prop := stands_for a (bs "store") \/ stands_for a (bs "seed").

(** [line args stores words]: the arguments consist of options naming the stores [stores] and of the words [words], both in order. *)
Inductive line : list bytes -> list bytes -> list bytes -> Prop :=
| line_nil : line [] [] []
| line_word a l st ws : word a -> line l st ws -> line (a :: l) st (a :: ws)
| line_store_eq a v l st ws : store_option a -> line l st ws -> line ((bs "--" ++ a ++ bs "=" ++ v) :: l) (v :: st) ws
| line_store a v l st ws : store_option a -> line l st ws -> line ((bs "--" ++ a) :: v :: l) (v :: st) ws
| line_ignored_eq a v l st ws : stands_for a (bs "seed-output") -> line l st ws -> line ((bs "--" ++ a ++ bs "=" ++ v) :: l) st ws
| line_ignored a v l st ws : stands_for a (bs "seed-output") -> line l st ws -> line ((bs "--" ++ a) :: v :: l) st ws
| line_end ws : line (bs "--" :: ws) [] ws.

(** The usual form, csn.1.scd:10: options in front of "extract INDEX TARGET". *)
Inductive options : list bytes -> list bytes -> Prop :=
| options_nil : options [] []
| options_store_eq a v l st : store_option a -> options l st -> options ((bs "--" ++ a ++ bs "=" ++ v) :: l) (v :: st)
| options_store a v l st : store_option a -> options l st -> options ((bs "--" ++ a) :: v :: l) (v :: st)
| options_ignored_eq a v l st : stands_for a (bs "seed-output") -> options l st -> options ((bs "--" ++ a ++ bs "=" ++ v) :: l) st
| options_ignored a v l st : stands_for a (bs "seed-output") -> options l st -> options ((bs "--" ++ a) :: v :: l) st.
