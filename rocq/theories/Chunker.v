(** Model of /repo/chunker.h and /repo/chunker.c. *)
From Verif Require Import Base Utils Discr.
Local Open Scope N_scope.

(** chunker.c:11-76 [buzhash_table] (decimal) *)
Definition buzhash_table : list N := [
  1166796626; 3238480076; 4223458232; 1844271976; 2970256053; 550983240;
  3754255967; 2822932481; 2126467473; 2215720391; 1707889587; 671766908;
  385221205; 3347889214; 692327925; 3107509396; 3968189670; 3084074716;
  3846812996; 4260210090; 2284581511; 823554940; 89561430; 3905691496;
  134655070; 580994115; 355040784; 1355845863; 1269174127; 4024037799;
  1549568092; 2185768851; 2617080932; 188641910; 4066938487; 2410515132;
  2958071144; 4054688415; 2772368894; 3408600320; 4071221638; 1684226859;
  2500411473; 1512192722; 2615689243; 1642428875; 441805332; 1480654274;
  2455887350; 3454010043; 1380133808; 3205969726; 2071732783; 693497110;
  2668677721; 3896558793; 3433814022; 341065524; 341983610; 222961564;
  142530853; 3623416396; 1933100069; 3481716981; 2979096013; 2559689619;
  844334252; 50873757; 2249465214; 3374453098; 3808405174; 1408576237;
  752378263; 4122604696; 3207699599; 3762364334; 2541662604; 3631679862;
  2553497194; 3329548159; 2351529285; 2359594278; 3298744546; 1933899892;
  1433369031; 1797647085; 2688428866; 4136593060; 2391476642; 4074825258;
  221943814; 2536105107; 2356326652; 369857782; 1158565181; 2050100869;
  3203985633; 567752275; 1312659322; 511392041; 482789145; 3192360275;
  2373265417; 3872965318; 660539538; 3366765171; 1287787904; 3972310551;
  4126654064; 3885311114; 928657385; 1112895670; 2291719416; 3693975492;
  17174859; 911065647; 504147231; 3194191932; 1600780994; 1297807983;
  465625013; 4213650825; 245661563; 1008479056; 565356850; 1796350973;
  803669672; 4189940962; 2724783694; 3918001286; 1051522403; 480379276;
  1709277736; 570897930; 1473189653; 885226795; 529480926; 2478200783;
  832575997; 3869161257; 2345302939; 1285381101; 662617775; 3772315822;
  3511714332; 825759857; 2948854192; 2457711400; 3915317164; 811222973;
  1114350427; 305377087; 1751800707; 1356886757; 3654531882; 2347746421;
  1216286182; 3364749193; 3177598302; 2535152920; 1672562759; 3620979150;
  2136489203; 1925958409; 3234899996; 2141405851; 3910502939; 576627098;
  3637157539; 3345199746; 3138151233; 34308755; 3570215325; 1490003960;
  2444553811; 937742656; 2515301964; 821521158; 1592167716; 1738311265;
  2753132994; 4072018564; 1336677493; 182143481; 426932771; 363324276;
  3292141781; 1068608115; 875546133; 2454456211; 3202537456; 2317852137;
  1252185868; 3796751231; 3196464139; 394011330; 1401480686; 3448403216;
  4177638653; 3686874556; 1812704859; 1693444295; 1219502201; 2150832713;
  3393030886; 4082393488; 4275507339; 3298530331; 851113129; 3951245898;
  2292445605; 982633994; 1019379105; 1897064068; 1244698289; 932468556;
  2747840243; 488716609; 1846160896; 590641649; 256694319; 1620307410;
  1568481438; 1179640601; 3571231902; 230180299; 4217260995; 3760549089;
  167464657; 152354334; 2780672707; 3337312187; 808584016; 1060732561;
  2792853948; 2260471340; 4020283362; 3925833027; 3878904108; 3515189627;
  849236872; 2447188843; 785059219; 4107807293; 901103679; 3840280304;
  95557699; 934566244; 1593778932; 1613231308; 1998031676; 2924507441;
  2079836860; 4190211430; 1497030245; 3646807825].
Definition buz (b : N) : N := nth (N.to_nat b) buzhash_table 0.

Definition WIN : nat := 48.                 (* chunker.h:11 CHUNKER_WINDOW_SIZE *)
Definition AVG_DEFAULT : N := 65536.        (* chunker.h:10 CHUNKER_SIZE_AVG_DEFAULT *)
Definition BUFSIZ : N := 8192.              (* glibc *)

(** chunker.h:13-15 [struct chunker_params] *)
Record params : Type := mkParams { p_min : N; p_avg : N; p_max : N }.

(** chunker.c:78-99 [chunker_params_set] ([None] = -1) *)
Definition chunker_params_set (mn av mx : N) : option params :=
  if negb ((mn <? av) && (av <? mx)) then None
  else if (UINT32_MAX <? mn) || (UINT32_MAX <? av) || (UINT32_MAX <? mx) then None
  else Some (mkParams mn av mx).

(** chunker.h:17-28 [struct chunker]; [c_sha] is the data fed to the SHA-256
    context, [c_win] the 48 bytes of the window. *)
Record chunker : Type := mkChunker {
  c_params : params; c_disc : N;
  c_h : N; c_size : N; c_fill : nat; c_win : bytes; c_sha : bytes }.

(** chunker.c:101-108 [chunker_reset] *)
Definition chunker_reset (c : chunker) : chunker :=
  mkChunker (c_params c) (c_disc c) 0 0 0 (c_win c) [].

(** chunker.c:111-124 [chunker_init]; the conversion of an unrepresentable double is
    undefined behaviour. *)
Definition chunker_init (p : params) : outcome chunker :=
  match discriminator_from_avg (p_avg p) with
  | None => UB
  | Some d => Ok (chunker_reset (mkChunker p d 0 0 0 (repeat 0 WIN) []))
  end.

(** chunker.c:138: the discriminator of the default average size, a compile-time
    constant of the C code (evaluated here, too). *)
Definition default_disc : N :=
  Eval vm_compute in
    match discriminator_from_avg AVG_DEFAULT with Some d => d | None => 0 end.

(** chunker.c:126-143 [chunker_shall_break]; [None]: division by zero *)
Definition shall_break (p : params) (disc : N) (h size : N) : option bool :=
  if p_max p <=? size then Some true
  else if size <? p_min p then Some false
  else
    let d := if p_avg p =? AVG_DEFAULT then default_disc else disc in
    if d =? 0 then None else Some (h mod d =? d - 1).
Definition chunker_shall_break (c : chunker) : option bool :=
  shall_break (c_params c) (c_disc c) (c_h c) (c_size c).

(** chunker.c:170-171: initial hashing of the full window; [i] counts up. *)
Fixpoint hash_window (win : bytes) (n : nat) (h : N) : N :=
  match win, n with
  | b :: win', S n' => hash_window win' n' (N.lxor h (rol32 (buz b) (N.of_nat n')))
  | _, _ => h
  end.

(** chunker.c:179-200: the rolling loop.  Result: number of bytes consumed, hash,
    chunk size, window, and whether a boundary was found; [None] = division by
    zero. *)
Fixpoint scan_loop (p : params) (disc : N) (h size : N) (win : bytes) (idx : nat)
    (buf : bytes) (n : nat) : option (nat * N * N * bytes * bool) :=
  match buf with
  | [] => Some (n, h, size, win, false)
  | b :: buf' =>
      let h := N.lxor (N.lxor (rol32 h 1) (rol32 (buz (nth idx win 0)) (N.of_nat WIN))) (buz b) in
      let size := size + 1 in
      let win := upd_nth idx b win in
      let idx := if Nat.eqb (S idx) WIN then O else S idx in
      match shall_break p disc h size with
      | None => None
      | Some true => Some (S n, h, size, win, true)
      | Some false => scan_loop p disc h size win idx buf' (S n)
      end
  end.

(** chunker.c:145-205 [chunker_scan]; result [None] stands for (size_t)-1, [Some n]
    for a boundary after n bytes. *)
Definition chunker_scan (c : chunker) (buf : bytes) : outcome (option nat * chunker) :=
  let full := negb (Nat.ltb (c_fill c) WIN) in
  let to_copy := if full then O else Nat.min (length buf) (WIN - c_fill c) in
  let win := if full then c_win c else overlay_at (c_fill c) (firstn to_copy buf) (c_win c) in
  let c1 := mkChunker (c_params c) (c_disc c) (c_h c) (c_size c + N.of_nat to_copy)
                      (c_fill c + to_copy) win (c_sha c ++ firstn to_copy buf) in
  let rest := skipn to_copy buf in
  if Nat.ltb (c_fill c1) WIN then Ok (None, c1) else
  let c2 := if full then c1
            else mkChunker (c_params c1) (c_disc c1) (hash_window win WIN (c_h c1))
                           (c_size c1) (c_fill c1) win (c_sha c1) in
  match chunker_shall_break c2 with
  | None => UB
  | Some true => Ok (Some to_copy, c2)
  | Some false =>
      match scan_loop (c_params c2) (c_disc c2) (c_h c2) (c_size c2) (c_win c2)
                      (N.to_nat (c_size c2 mod 48)) rest 0 with
      | None => UB
      | Some (n, h, size, win, brk) =>
          let c3 := mkChunker (c_params c2) (c_disc c2) h size (c_fill c2) win
                              (c_sha c2 ++ firstn n rest) in
          Ok (if (brk : bool) then Some (to_copy + n)%nat else None, c3)
      end
  end.

(** chunker.c:207-213 [chunker_get_id] *)
Definition chunker_get_id (E : env) (c : chunker) : bytes := e_H E (c_sha c).

Section ScanFd.
Context {A : Type}.
(** The callback: 0 = [true], negative = [false]; [A] is what [arg] points to. *)
Variable cb : N -> N -> bytes -> A -> M (bool * A).

(** State of chunker_scan_fd between reads. *)
Record scan_st : Type := mkScan { sc_c : chunker; sc_off : N; sc_last : N; sc_arg : A }.

(** chunker.c:248-270: the inner loop over one buffer.  Every iteration that continues
    consumes at least one byte, so [fuel] = 1 + number of bytes is never used up. *)
Fixpoint scan_buf (E : env) (fuel : nat) (buf : bytes) (st : scan_st) : M (bool * scan_st) :=
  match fuel with
  | O => halt
  | S fuel' =>
    match buf with
    | [] => ret (true, st)
    | _ :: _ =>
      '(r, c) <- lift (chunker_scan (sc_c st) buf) ;;
      match r with
      | None => ret (true, mkScan c (sc_off st + blen buf) (sc_last st) (sc_arg st))
      | Some n =>
          let off := sc_off st + N.of_nat n in
          let id := chunker_get_id E c in
          '(ok, a) <- cb (sc_last st) ((off - sc_last st) mod M32) id (sc_arg st) ;;
          if negb (ok : bool) then ret (false, mkScan c off (sc_last st) a)
          else scan_buf E fuel' (skipn n buf) (mkScan (chunker_reset c) off off a)
      end
    end
  end.

(** One read(2) of at most [len] bytes at [pos]: [None] = -1/EINTR handled by the caller. *)
Inductive read1_res : Type := R1Data (d : bytes) | R1Intr | R1Err.
Definition read1 (ino : nat) (pos len : N) : M read1_res := fun w =>
  match w_io w with
  | [] => (Halt, w)
  | IoIntr :: ev => (Ok R1Intr, set_io ev w)
  | IoErr :: ev => (Ok R1Err, set_io ev w)
  | IoZero :: ev => (Ok (R1Data []), set_io ev w)
  | IoN k :: ev =>
      let f := w_files w ino in
      (Ok (R1Data (firstn (N.to_nat (N.min (N.of_nat (S k)) len))
                          (skipn (N.to_nat (N.min pos (blen f))) f))), set_io ev w)
  end.

(** chunker.c:235-271: the outer loop; every iteration uses one event. *)
Fixpoint scan_reads (E : env) (fuel : nat) (ino : nat) (pos : N) (st : scan_st)
  : M (bool * scan_st) :=
  match fuel with
  | O => halt
  | S fuel' =>
    r <- read1 ino pos BUFSIZ ;;
    match r with
    | R1Intr => scan_reads E fuel' ino pos st
    | R1Err => ret (false, st)
    | R1Data [] => ret (true, st)
    | R1Data ((_ :: _) as d) =>
        '(ok, st) <- scan_buf E (S (length d)) d st ;;
        if negb (ok : bool) then ret (false, st)
        else scan_reads E fuel' ino (pos + blen d) st
    end
  end.

(** chunker.c:215-281 [chunker_scan_fd] *)
Definition chunker_scan_fd (E : env) (ino : nat) (p : params) (arg : A) : M (bool * A) :=
  c <- lift (chunker_init p) ;;
  '(ok, st) <- (fun w => scan_reads E (S (length (w_io w))) ino 0 (mkScan c 0 0 arg) w) ;;
  if negb (ok : bool) then ret (false, sc_arg st)
  else if sc_off st =? sc_last st then ret (true, sc_arg st)
  else cb (sc_last st) ((sc_off st - sc_last st) mod M32) (chunker_get_id E (sc_c st)) (sc_arg st).
End ScanFd.
Arguments mkScan {A}. Arguments sc_c {A}. Arguments sc_off {A}. Arguments sc_last {A}. Arguments sc_arg {A}.
