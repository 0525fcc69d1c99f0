(** Model of /repo/log.c, and of the part of printf it and its callers rely on. *)
From Verif Require Import Base Utils.
Local Open Scope N_scope.

(** * printf *)

(** A variadic argument after the default promotions: a 32 bit integer and a 64 bit integer (bit patterns),
    a string and a pointer. *)
Inductive arg := AInt (v : N) | ALong (v : N) | AStr (s : bytes) | APtr (v : N).

Fixpoint digits_fuel (fuel : nat) (base n : N) (acc : bytes) : bytes :=
  match fuel with
  | O => acc
  | S f =>
      let d := n mod base in
      let acc' := (if d <? 10 then d + 48 else d + 87) :: acc in
      if n / base =? 0 then acc' else digits_fuel f base (n / base) acc'
  end.
(** the digits of a number below 2^64, without leading zeros *)
Definition digits (base n : N) : bytes := digits_fuel 64 base n [].

(** the signed decimal of a [bits] bit pattern *)
Definition signed_dec (half n : N) : bytes := if n <? half then digits 10 n else 45 :: digits 10 (2 * half - n).

Definition is_digit (c : N) : bool := (48 <=? c) && (c <=? 57).
(** the characters between '%' and the conversion character: '0', width, length modifier *)
Definition is_mod (c : N) : bool := is_digit c || (c =? 108) || (c =? 122) || (c =? 106).    (* l z j *)
Fixpoint width_of (m : bytes) (acc : N) : N * bytes :=
  match m with
  | [] => (acc, [])
  | c :: r => if is_digit c then width_of r (10 * acc + (c - 48)) else (acc, m)
  end.
(** is the length modifier one for 64 bit arguments?  [None]: not a length modifier *)
Definition is_long (m : bytes) : option bool :=
  match m with
  | [] => Some false
  | [108] => Some true
  | [108; 108] => Some true
  | [122] => Some true
  | [106] => Some true
  | _ => None
  end.
Definition pad_num (zero : bool) (width : N) (s : bytes) : bytes := repeat (if zero then 48 else 32) (N.to_nat width - length s) ++ s.

(** The text for one conversion; [None]: undefined or not used in the code.  (A padded negative
    number would need its sign first; no conversion in the code pads a signed number.) *)
Definition conv_out (m : bytes) (c : N) (a : arg) : option bytes :=
  let zero := match m with 48 :: _ => true | _ => false end in
  let (width, lm) := width_of m 0 in
  match is_long lm with
  | None => None
  | Some long =>
      match a, long with
      | AInt v, false =>
          if c =? 100 then Some (pad_num zero width (signed_dec 2147483648 v))           (* d *)
          else if c =? 117 then Some (pad_num zero width (digits 10 v))                   (* u *)
          else if c =? 120 then Some (pad_num zero width (digits 16 v))                   (* x *)
          else if c =? 111 then Some (pad_num zero width (digits 8 v))                    (* o *)
          else if c =? 99 then match m with [] => Some [v mod 256] | _ => None end        (* c *)
          else None
      | ALong v, true =>
          if c =? 100 then Some (pad_num zero width (signed_dec 9223372036854775808 v))
          else if c =? 117 then Some (pad_num zero width (digits 10 v))
          else if c =? 120 then Some (pad_num zero width (digits 16 v))
          else if c =? 111 then Some (pad_num zero width (digits 8 v))
          else None
      | AStr s, false => if c =? 115 then match m with [] => Some s | _ => None end else None     (* s *)
      | APtr v, false => if c =? 112 then match m with [] => Some (bs "0x" ++ digits 16 v) | _ => None end else None     (* p *)
      | _, _ => None
      end
  end.

(** [st = Some m]: inside a conversion, having read [m] after the '%'.  [None]: undefined behaviour
    (an incomplete or unknown conversion, or a missing argument or one of the wrong type). *)
Fixpoint render (st : option bytes) (fmt : bytes) (args : list arg) : option bytes :=
  match fmt with
  | [] => match st with None => Some [] | Some _ => None end
  | c :: r =>
      match st with
      | None => if c =? 37 then render (Some []) r args else option_map (cons c) (render None r args)
      | Some m =>
          if is_mod c then render (Some (m ++ [c])) r args
          else if c =? 37 then match m with [] => option_map (cons 37) (render None r args) | _ => None end
          else match args with
               | [] => None
               | a :: args' => match conv_out m c a with
                               | Some t => option_map (app t) (render None r args')
                               | None => None
                               end
               end
      end
  end.
Definition printf (fmt : bytes) (args : list arg) : option bytes := render None fmt args.
(** what snprintf leaves in a buffer of [n] > 0 bytes, without the terminator *)
Definition snprintf (n : nat) (fmt : bytes) (args : list arg) : option bytes := option_map (firstn (n - 1)) (printf fmt args).

(** * log.c *)

Definition U_LOG_ERR : N := 0.     (* log.h:6-11 *)
Definition U_LOG_WARN : N := 1.
Definition U_LOG_INFO : N := 2.
Definition U_LOG_DEBUG : N := 3.

(** log.c:44-50 [check_loglevel] *)
Definition check_loglevel (loglevel level : N) : bool := if loglevel <? level then false else true.

(** string.h strrchr, and log.c:59-63: the part after the last '/' *)
Fixpoint after_slash (path acc : bytes) : bytes :=
  match path with
  | [] => acc
  | c :: r => after_slash r (if c =? 47 then r else acc)
  end.
Definition log_file (path : bytes) : bytes := after_slash path path.

Definition ESC : bytes := [27].
Definition NL : bytes := [10].
Definition TAB : bytes := [9].
(** log.c:67-72 [color_map] and log.c:79-84 [level_map] *)
Definition color_map (level : N) : option N := nth_error [196; 202; 40; 75] (N.to_nat level).
Definition level_map (level : N) : option bytes := nth_error [bs "ERR"; bs "WRN"; bs "INF"; bs "DBG"] (N.to_nat level).
(** log.c:36-37, 74 and 86: the outer formats *)
Definition fmt_tty : bytes := ESC ++ bs "[38;5;%dm" ++ bs "%s:%s:%d" ++ TAB ++ bs "%s" ++ ESC ++ bs "[0m" ++ NL.
Definition fmt_plain : bytes := bs "%s %s:%s:%d %s" ++ NL.
Definition LOG_BUF : nat := 128.   (* log.c:65 *)

(** log.c:52-102 [_u_log]: what is printed on stderr.  [None]: undefined behaviour. *)
Definition u_log (tty : bool) (loglevel level : N) (path func : bytes) (line : N) (format : bytes) (args : list arg) : option bytes :=
  if check_loglevel loglevel level then
    let file := log_file path in
    match (if tty
           then match color_map level with
                | Some c => snprintf LOG_BUF fmt_tty [AInt c; AStr file; AStr func; AInt line; AStr format]
                | None => None
                end
           else match level_map level with
                | Some s => snprintf LOG_BUF fmt_plain [AStr s; AStr file; AStr func; AInt line; AStr format]
                | None => None
                end) with
    | None => None
    | Some buf => printf buf args
    end
  else Some [].

(** log.c:14-34 [u_log_init]: the log level and what is printed; [getenv] is the value of LOGLEVEL *)
Definition u_log_init (tty : bool) (getenv : option bytes) : N * option bytes :=
  let loglevel := U_LOG_INFO in                                                   (* log.c:11 *)
  match getenv with
  | None => (loglevel, Some [])
  | Some s =>
      if beq s (bs "debug") then (U_LOG_DEBUG, Some [])
      else if beq s (bs "info") then (U_LOG_INFO, Some [])
      else if beq s (bs "warn") || beq s (bs "warning") then (U_LOG_WARN, Some [])
      else if beq s (bs "err") || beq s (bs "error") then (U_LOG_ERR, Some [])
      else (loglevel, u_log tty loglevel U_LOG_WARN (bs "log.c") (bs "u_log_init") 33 (bs "unknown loglevel '%s'") [AStr s])
  end.

(** * hexdump *)

(** log.c:107: [buff], bytes not yet written being [None] *)
Definition hd_init : list (option N) := repeat None 17.
Fixpoint set_nth {A} (i : nat) (v : A) (l : list A) : list A :=
  match i, l with
  | _, [] => []
  | O, _ :: r => v :: r
  | S i', x :: r => x :: set_nth i' v r
  end.
(** the string in [buff]; [None]: reading it touches an indeterminate byte or leaves the array *)
Fixpoint hd_string (buff : list (option N)) : option bytes :=
  match buff with
  | [] => None
  | None :: _ => None
  | Some c :: r => if c =? 0 then Some [] else option_map (cons c) (hd_string r)
  end.
Definition hd_flush (buff : list (option N)) : option bytes :=
  match hd_string buff with
  | Some s => printf (bs "  %s" ++ NL) [AStr s]
  | None => None
  end.
Definition oapp (a b : option bytes) : option bytes :=
  match a, b with Some x, Some y => Some (x ++ y) | _, _ => None end.
(** log.c:125-128 *)
Definition hd_char (b : N) : N := if (b <? 32) || (126 <? b) then 46 else b.
(** log.c:111-130: the loop, then log.c:132-139 *)
Fixpoint hd_loop (data : bytes) (i : N) (buff : list (option N)) : option bytes :=
  match data with
  | [] => oapp (Some (repeat 32 (3 * N.to_nat ((16 - i mod 16) mod 16)))) (hd_flush buff)
  | b :: r =>
      let pre := if i mod 16 =? 0
                 then oapp (if i =? 0 then Some [] else hd_flush buff) (printf (bs "  %04zx ") [ALong i])
                 else Some [] in
      let k := N.to_nat (i mod 16) in
      let buff' := set_nth (k + 1) (Some 0) (set_nth k (Some (hd_char b)) buff) in
      oapp pre (oapp (printf (bs " %02x") [AInt b]) (hd_loop r (i + 1) buff'))
  end.
(** log.c:104-140 [hexdump] *)
Definition hexdump (data : bytes) : option bytes := hd_loop data 0 hd_init.
