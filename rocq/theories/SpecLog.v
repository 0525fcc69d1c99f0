(** Specification of log messages and hex dumps. *)
From Verif Require Import Base Utils Log.
Local Open Scope N_scope.

(** The last component of a path *)
Definition is_basename (path file : bytes) : Prop :=
  ~ In 47 file /\ (path = file \/ exists dir, path = dir ++ [47] ++ file).

(** A message: what precedes and what follows its text *)
Definition severity (level : N) : bytes := nth (N.to_nat level) [bs "ERR"; bs "WRN"; bs "INF"; bs "DBG"] [].
Definition color (level : N) : N := nth (N.to_nat level) [196; 202; 40; 75] 0.
Definition position (sep file func : bytes) (line : N) : bytes := file ++ bs ":" ++ func ++ bs ":" ++ digits 10 line ++ sep.
Definition header (tty : bool) (level : N) (file func : bytes) (line : N) : bytes :=
  if tty then ESC ++ bs "[38;5;" ++ digits 10 (color level) ++ bs "m" ++ position TAB file func line
  else severity level ++ bs " " ++ position (bs " ") file func line.
Definition trailer (tty : bool) : bytes := if tty then ESC ++ bs "[0m" ++ NL else NL.

Definition percent_free (s : bytes) : Prop := ~ In 37 s.

(** The levels and what LOGLEVEL selects *)
Definition selected (getenv : option bytes) (level : N) : Prop :=
  match getenv with
  | None => level = U_LOG_INFO
  | Some s => s = bs "debug" /\ level = U_LOG_DEBUG \/ s = bs "info" /\ level = U_LOG_INFO
              \/ (s = bs "warn" \/ s = bs "warning") /\ level = U_LOG_WARN \/ (s = bs "err" \/ s = bs "error") /\ level = U_LOG_ERR
  end.

(** A place in the source that logs a message: file, function, line, level and format *)
Record site := mkSite { s_file : bytes; s_func : bytes; s_line : N; s_level : N; s_fmt : bytes }.
(** what it prints with the given arguments *)
Definition log_at (s : site) (tty : bool) (loglevel : N) (path : bytes) (args : list arg) : option bytes :=
  u_log tty loglevel (s_level s) path (s_func s) (s_line s) (s_fmt s) args.
Definition full_message (s : site) (tty : bool) (text : bytes) : bytes :=
  header tty (s_level s) (s_file s) (s_func s) (s_line s) ++ text ++ trailer tty.

(** The value a numeral denotes *)
Definition digit_val (c : N) : N := if c <? 58 then c - 48 else c - 87.
Definition numeral_val (base : N) (s : bytes) : N := fold_left (fun v c => v * base + digit_val c) s 0.

(** A hex dump: one row for each 16 bytes *)
Definition hex_digit (d : N) : N := nth (N.to_nat d) (bs "0123456789abcdef") 0.
Definition hex2 (b : N) : bytes := [hex_digit (b / 16); hex_digit (b mod 16)].
Definition printable (b : N) : Prop := 32 <= b <= 126.
Definition glyph (b : N) : N := if (32 <=? b) && (b <=? 126) then b else 46.
Definition offset_text (i : N) : bytes := repeat 48 (4 - length (digits 16 i)) ++ digits 16 i.
Definition row (off : N) (l : bytes) : bytes :=
  bs "  " ++ offset_text off ++ bs " " ++ flat_map (fun b => 32 :: hex2 b) l ++ repeat 32 (3 * (16 - length l)) ++ bs "  " ++ map glyph l ++ NL.
Fixpoint rows (n : nat) (off : N) (data : bytes) : bytes :=
  match n with
  | O => []
  | S n' => row off (firstn 16 data) ++ rows n' (off + 16) (skipn 16 data)
  end.
Definition n_rows (data : bytes) : nat := (length data + 15) / 16.
