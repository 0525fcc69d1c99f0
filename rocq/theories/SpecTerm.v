(** What a terminal shows of the progress display (C95). *)
From Verif Require Import Base Ui SpecPatch.
Local Open Scope N_scope.

(** ** A terminal: the lines that are finished, the line the cursor is in, its column, and what has been read of an
    escape sequence (the number in it).  Only what is printed here is understood. *)
Inductive tmode := Plain | Escape | Number (n : N).
Record term := mkTerm { tm_done : list bytes; tm_line : bytes; tm_col : nat; tm_mode : tmode }.
Definition fresh : term := mkTerm [] [] 0 Plain.
(** Cells that were never written are blank. *)
Definition put_cell (line : bytes) (col : nat) (c : N) : bytes :=
  firstn col (line ++ repeat 32 (col - length line)) ++ [c] ++ skipn (S col) line.
Definition key_in (t : term) (c : N) : term :=
  match tm_mode t with
  | Plain => if c =? 27 then mkTerm (tm_done t) (tm_line t) (tm_col t) Escape
             else if c =? 10 then mkTerm (tm_done t ++ [tm_line t]) [] 0 Plain
             else mkTerm (tm_done t) (put_cell (tm_line t) (tm_col t) c) (S (tm_col t)) Plain
  | Escape => if c =? 91 then mkTerm (tm_done t) (tm_line t) (tm_col t) (Number 0) else mkTerm (tm_done t) (tm_line t) (tm_col t) Plain
  | Number n => if (48 <=? c) && (c <=? 57) then mkTerm (tm_done t) (tm_line t) (tm_col t) (Number (10 * n + (c - 48)))
                else if c =? 71 (* cursor to a column, counted from 1 *) then mkTerm (tm_done t) (tm_line t) (N.to_nat (N.max n 1) - 1) Plain
                else mkTerm (tm_done t) (tm_line t) (tm_col t) Plain
  end.
Definition type_in (t : term) (s : bytes) : term := fold_left key_in s t.

(** ** The line for a percentage *)
(** A number below 1000, right-aligned in three columns. *)
Definition value_of (ds : bytes) : N := fold_left (fun a d => 10 * a + (d - 48)) ds 0.
Definition number_text (n : N) (t : bytes) : Prop :=
  exists ds, t = repeat 32 (3 - length ds) ++ ds /\ (1 <= length ds <= 3)%nat /\ Forall (fun d => 48 <= d <= 57) ds /\ value_of ds = n /\ (hd 0 ds = 48 -> ds = [48]).
(** The spinner shows one of these characters. *)
Definition progress_line (c p : N) (t : bytes) : Prop :=
  exists bar num, bar_of p bar /\ number_text p num /\ t = bs "[" ++ [c] ++ bs "] |" ++ bar ++ bs "| " ++ num ++ bs "%".
Definition spin_chars : bytes := bs "-\|/".

(** What is printed for a list of percentages, from a status. *)
Fixpoint printed (s : N) (l : list N) : bytes :=
  match l with [] => [] | p :: l' => fst (show_progress p s) ++ printed (snd (show_progress p s)) l' end.
(** The screen after the percentages [l]: nothing, the last one in the current line, or, if that is 100, in the finished line. *)
Definition screen_shows (t : term) (l : list N) : Prop :=
  (l = [] /\ t = fresh) \/
  exists l' p c line, l = l' ++ [p] /\ In c spin_chars /\ progress_line c p line /\
    ((p <> 100 /\ tm_done t = [] /\ tm_line t = line) \/ (p = 100 /\ tm_done t = [line] /\ tm_line t = [])) /\ tm_mode t = Plain.
(** The character of the spinner in what is printed. *)
Definition spin_of (p s : N) : N := nth 1 (tm_line (type_in fresh (firstn 70 (fst (show_progress p s))))) 0.
