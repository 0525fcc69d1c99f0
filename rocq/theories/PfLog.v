(** Proofs about log.c. *)
From Verif Require Import Base Lib Utils Log SpecLog PfUtils.
Local Open Scope N_scope.

(** ** printf *)
Lemma render_text a fmt args : percent_free a -> render None (a ++ fmt) args = option_map (app a) (render None fmt args).
Proof.
  intros Ha. induction a as [|c a IH]; cbn [app render]; [now destruct (render None fmt args)|].
  destruct (N.eqb_spec c 37) as [-> |_]; [destruct Ha; now left|]. rewrite IH by (intros X; apply Ha; now right). now destruct (render None fmt args).
Qed.
(** the state after reading part of a format *)
Fixpoint after (st : option bytes) (fmt : bytes) : option bytes :=
  match fmt with
  | [] => st
  | c :: r => match st with
              | None => after (if c =? 37 then Some [] else None) r
              | Some m => after (if is_mod c then Some (m ++ [c]) else None) r
              end
  end.
Lemma render_app a b : forall st args m, after st a = None -> render st (a ++ b) args = Some m ->
  exists m1 m2 args', render st a args = Some m1 /\ render None b args' = Some m2 /\ m = m1 ++ m2.
Proof.
  induction a as [|c a IH]; cbn [app render after]; intros st args m Ha Hr.
  - subst st. exists [], m, args. auto.
  - destruct st as [q|].
    + destruct (is_mod c); [now apply IH|]. destruct (c =? 37).
      * destruct q; [|discriminate]. destruct (render None (a ++ b) args) as [t|] eqn:R; [|discriminate]. injection Hr as <-.
        destruct (IH None args t Ha R) as (m1 & m2 & ar & -> & R2 & ->). exists (37 :: m1), m2, ar. auto.
      * destruct args as [|x args]; [discriminate|]. destruct (conv_out q c x) as [u|]; [|discriminate].
        destruct (render None (a ++ b) args) as [t|] eqn:R; [|discriminate]. injection Hr as <-.
        destruct (IH None args t Ha R) as (m1 & m2 & ar & -> & R2 & ->). exists (u ++ m1), m2, ar. repeat split; auto. apply app_assoc.
    + destruct (c =? 37); [now apply IH|]. destruct (render None (a ++ b) args) as [t|] eqn:R; [|discriminate]. injection Hr as <-.
      destruct (IH None args t Ha R) as (m1 & m2 & ar & -> & R2 & ->). exists (c :: m1), m2, ar. auto.
Qed.
Lemma render_closed fmt : forall st args m, render st fmt args = Some m -> after st fmt = None.
Proof.
  induction fmt as [|c r IH]; cbn [render after]; intros st args m Hr; [destruct st; [discriminate|reflexivity]|].
  destruct st as [q|].
  - destruct (is_mod c); [now apply IH in Hr|]. destruct (c =? 37).
    + destruct q; [|discriminate]. destruct (render None r args) eqn:R; [|discriminate]. now apply IH in R.
    + destruct args as [|x args]; [discriminate|]. destruct (conv_out q c x); [|discriminate]. destruct (render None r args) eqn:R; [|discriminate]. now apply IH in R.
  - destruct (c =? 37); [now apply IH in Hr|]. destruct (render None r args) eqn:R; [|discriminate]. now apply IH in R.
Qed.
Lemma render_tail a b : percent_free b -> forall st args m, render st a args = Some m -> render st (a ++ b) args = Some (m ++ b).
Proof.
  intros Hb. induction a as [|c a IH]; cbn [app render]; intros st args m Hr.
  - destruct st; [discriminate|]. injection Hr as <-. rewrite <- (app_nil_r b) at 1. rewrite render_text by exact Hb. cbn. now rewrite app_nil_r.
  - destruct st as [q|].
    + destruct (is_mod c); [now apply IH|]. destruct (c =? 37).
      * destruct q; [|discriminate]. destruct (render None a args) as [t|] eqn:R; [|discriminate]. injection Hr as <-. now rewrite (IH _ _ _ R).
      * destruct args as [|x args]; [discriminate|]. destruct (conv_out q c x) as [u|]; [|discriminate].
        destruct (render None a args) as [t|] eqn:R; [|discriminate]. injection Hr as <-. rewrite (IH _ _ _ R). cbn. now rewrite app_assoc.
    + destruct (c =? 37); [now apply IH|]. destruct (render None a args) as [t|] eqn:R; [|discriminate]. injection Hr as <-. now rewrite (IH _ _ _ R).
Qed.

(** ** digits *)
Lemma digit_char d : d < 16 -> digit_val (if d <? 10 then d + 48 else d + 87) = d /\ (if d <? 10 then d + 48 else d + 87) <> 37.
Proof. intros H. unfold digit_val. destruct (N.ltb_spec d 10); [destruct (N.ltb_spec (d + 48) 58)|destruct (N.ltb_spec (d + 87) 58)]; lia. Qed.
Lemma digits_fuel_val base f : 2 <= base <= 16 -> forall n acc, n < base ^ N.of_nat f ->
  fold_left (fun v c => v * base + digit_val c) (digits_fuel f base n acc) 0 = fold_left (fun v c => v * base + digit_val c) acc n.
Proof.
  intros Hb. induction f as [|f IH]; intros n acc Hn.
  - cbn in Hn. assert (n = 0) as -> by lia. reflexivity.
  - cbn [digits_fuel]. rewrite Nat2N.inj_succ, N.pow_succ_r' in Hn.
    assert (D : n = base * (n / base) + n mod base) by (apply N.div_mod; lia). assert (M : n mod base < base) by (apply N.mod_lt; lia).
    destruct (digit_char (n mod base) ltac:(lia)) as (V & _). destruct (N.eqb_spec (n / base) 0) as [Z|Z].
    + cbn [fold_left]. rewrite V. rewrite Z in D. f_equal. lia.
    + rewrite IH by (apply N.div_lt_upper_bound; lia). cbn [fold_left]. rewrite V. f_equal. lia.
Qed.
Lemma digits_val base n : 2 <= base <= 16 -> n < SIZE_MOD -> numeral_val base (digits base n) = n.
Proof.
  intros Hb Hn. unfold numeral_val, digits. rewrite digits_fuel_val; [reflexivity|exact Hb|]. apply N.lt_le_trans with (1 := Hn).
  change SIZE_MOD with (2 ^ N.of_nat 64). apply N.pow_le_mono_l. lia.
Qed.
Lemma digits_fuel_free base f : 2 <= base <= 16 -> forall n acc, percent_free acc -> percent_free (digits_fuel f base n acc).
Proof.
  intros Hb. induction f as [|f IH]; intros n acc Ha; cbn [digits_fuel]; [exact Ha|].
  assert (M : n mod base < base) by (apply N.mod_lt; lia). destruct (digit_char (n mod base) ltac:(lia)) as (_ & V).
  assert (H : percent_free ((if n mod base <? 10 then n mod base + 48 else n mod base + 87) :: acc)) by (intros [X|X]; [now apply V|now apply Ha]).
  destruct (n / base =? 0); [exact H|now apply IH].
Qed.
Lemma digits_free base n : 2 <= base <= 16 -> percent_free (digits base n).
Proof. intros Hb. apply digits_fuel_free; [exact Hb|intros []]. Qed.

(** ** _u_log *)
Lemma after_slash_spec path : forall acc, ~ In 47 path /\ after_slash path acc = acc \/ exists dir, path = dir ++ [47] ++ after_slash path acc /\ ~ In 47 (after_slash path acc).
Proof.
  induction path as [|c r IH]; cbn [after_slash]; intros acc; [left; auto|]. destruct (N.eqb_spec c 47) as [-> |Hc].
  - destruct (IH r) as [(Hn & ->)|(dir & E & Hn)]; right; [exists []; auto|]. exists (47 :: dir). split; [cbn [app]; f_equal; exact E|exact Hn].
  - destruct (IH acc) as [(Hn & ->)|(dir & E & Hn)]; [left; split; [intros [X|X]; [now apply Hc|now apply Hn]|reflexivity]|].
    right. exists (c :: dir). split; [cbn [app]; f_equal; exact E|exact Hn].
Qed.
Lemma log_file_spec path : is_basename path (log_file path).
Proof.
  unfold is_basename, log_file. destruct (after_slash_spec path path) as [(Hn & ->)|(dir & E & Hn)]; [auto|]. split; [exact Hn|]. right. now exists dir.
Qed.
Lemma basename_unique path f g : is_basename path f -> is_basename path g -> f = g.
Proof.
  intros (Hf & F) (Hg & G).
  assert (K : forall (d e x y : bytes), ~ In 47 x -> ~ In 47 y -> d ++ [47] ++ x = e ++ [47] ++ y -> x = y).
  { clear. induction d as [|c d IH]; intros e x y Hx Hy E.
    - destruct e as [|c' e]; cbn in E; [now injection E|]. injection E as <- E. destruct Hx. rewrite E. apply in_app_iff. right. now left.
    - destruct e as [|c' e]; cbn in E; injection E as -> E; [destruct Hy; rewrite <- E; apply in_app_iff; right; now left|]. exact (IH e x y Hx Hy E). }
  destruct F as [-> |(d & ->)], G as [G|(e & G)]; auto.
  - destruct Hf. rewrite G. apply in_app_iff. right. now left.
  - destruct Hg. rewrite <- G. apply in_app_iff. right. now left.
  - exact (K d e f g Hf Hg G).
Qed.

Lemma signed_small n : n < 2147483648 -> signed_dec 2147483648 n = digits 10 n.
Proof. intros H. unfold signed_dec. now destruct (N.ltb_spec n 2147483648); [|lia]. Qed.
Definition outer (tty : bool) (level : N) (file func : bytes) (line : N) (format : bytes) : bytes :=
  header tty level file func line ++ format ++ trailer tty.
Lemma levels level : level <= 3 -> level = 0 \/ level = 1 \/ level = 2 \/ level = 3. Proof. lia. Qed.
Lemma render_s r s args : render None ([37; 115] ++ r) (AStr s :: args) = option_map (app s) (render None r args). Proof. reflexivity. Qed.
Lemma render_d r n args : n < 2147483648 -> render None ([37; 100] ++ r) (AInt n :: args) = option_map (app (digits 10 n)) (render None r args).
Proof.
  intros H. cbn [app render]. change (37 =? 37) with true. change (is_mod 100) with false. change (100 =? 37) with false. cbn iota.
  change (conv_out [] 100 (AInt n)) with (Some (signed_dec 2147483648 n)). now rewrite signed_small.
Qed.
Lemma fmt_tty_parts : fmt_tty = (ESC ++ bs "[38;5;") ++ [37; 100] ++ bs "m" ++ [37; 115] ++ bs ":" ++ [37; 115] ++ bs ":" ++ [37; 100] ++ TAB ++ [37; 115] ++ (ESC ++ bs "[0m" ++ NL) ++ [].
Proof. reflexivity. Qed.
Lemma fmt_plain_parts : fmt_plain = [37; 115] ++ bs " " ++ [37; 115] ++ bs ":" ++ [37; 115] ++ bs ":" ++ [37; 100] ++ bs " " ++ [37; 115] ++ NL ++ [].
Proof. reflexivity. Qed.
Lemma u_log_outer tty loglevel level path func line format args : level <= 3 -> line < 2147483648 -> level <= loglevel ->
  u_log tty loglevel level path func line format args = printf (firstn 127 (outer tty level (log_file path) func line format)) args.
Proof.
  intros Hl Hn Hc. unfold u_log, check_loglevel. destruct (N.ltb_spec loglevel level); [lia|].
  assert (T : forall s, forallb (fun c => negb (c =? 37)) s = true -> percent_free s) by (intros s X Y; rewrite forallb_forall in X; specialize (X 37 Y); discriminate).
  destruct tty.
  - assert (C : color_map level = Some (color level) /\ color level < 2147483648) by (destruct (levels level Hl) as [-> |[-> |[-> | ->]]]; split; reflexivity).
    destruct C as (-> & Hcl). unfold snprintf, LOG_BUF. unfold printf at 2. rewrite fmt_tty_parts.
    rewrite render_text, render_d, render_text, render_s, render_text, render_s, render_text, render_d, render_text, render_s, render_text by (assumption || (apply T; reflexivity)).
    cbn [render option_map Nat.sub]. unfold outer, header, position, trailer. rewrite app_nil_r, <- !app_assoc. reflexivity.
  - assert (C : level_map level = Some (severity level)) by (destruct (levels level Hl) as [-> |[-> |[-> | ->]]]; reflexivity).
    rewrite C. unfold snprintf, LOG_BUF. unfold printf at 2. rewrite fmt_plain_parts.
    rewrite render_s, render_text, render_s, render_text, render_s, render_text, render_d, render_text, render_s, render_text by (assumption || (apply T; reflexivity)).
    cbn [render option_map Nat.sub]. unfold outer, header, position, trailer. rewrite app_nil_r, <- !app_assoc. reflexivity.
Qed.
Lemma free_app a b : percent_free a -> percent_free b -> percent_free (a ++ b).
Proof. intros A B X. apply in_app_iff in X as [X|X]; [now apply A|now apply B]. Qed.
Lemma free_bs s : forallb (fun c => negb (c =? 37)) s = true -> percent_free s.
Proof. intros H X. rewrite forallb_forall in H. specialize (H 37 X). discriminate. Qed.
Lemma header_free tty level file func line : level <= 3 -> percent_free file -> percent_free func -> percent_free (header tty level file func line).
Proof.
  intros Hl Hf Hg. unfold header, position, severity. destruct tty.
  - repeat apply free_app; auto; try (apply free_bs; reflexivity); apply digits_free; lia.
  - apply free_app; [destruct (levels level Hl) as [-> |[-> |[-> | ->]]]; apply free_bs; reflexivity|]. repeat apply free_app; auto; try (apply free_bs; reflexivity); apply digits_free; lia.
Qed.
Lemma trailer_free tty : percent_free (trailer tty). Proof. destruct tty; apply free_bs; reflexivity. Qed.

Section Message.
Variables (tty : bool) (loglevel level line : N) (path func format : bytes).
Hypothesis (Hl : level <= 3) (Hn : line < 2147483648) (Hc : level <= loglevel).
Let file := log_file path.
Hypothesis (Hf : percent_free file) (Hg : percent_free func).

Lemma message_complete args text : printf format args = Some text -> (length (header tty level file func line ++ format ++ trailer tty) <= 127)%nat ->
  u_log tty loglevel level path func line format args = Some (header tty level file func line ++ text ++ trailer tty).
Proof.
  intros R Hlen. rewrite u_log_outer by assumption. fold file. unfold outer. rewrite firstn_all2 by exact Hlen. unfold printf in *.
  rewrite render_text by now apply header_free. now rewrite (render_tail format (trailer tty) (trailer_free tty) _ _ _ R).
Qed.
(** A message that does not fit: the part of the format that does determines what is printed. *)
Lemma message_cut args text part rest : printf format args = Some text -> format = part ++ rest ->
  (length (header tty level file func line ++ part) = 127)%nat -> after None part = None ->
  exists shown hidden, u_log tty loglevel level path func line format args = Some (header tty level file func line ++ shown) /\ text = shown ++ hidden.
Proof.
  intros R -> Hlen Ha. rewrite u_log_outer by assumption. fold file. unfold outer. rewrite <- app_assoc. rewrite app_assoc, firstn_app, Hlen, Nat.sub_diag, firstn_all2 by lia. cbn [firstn]. rewrite app_nil_r.
  unfold printf in *. rewrite render_text by now apply header_free. destruct (render_app part rest None args text Ha R) as (m1 & m2 & ar & -> & _ & ->). exists m1, m2. auto.
Qed.
End Message.

Lemma message_hidden tty loglevel level path func line format args : loglevel < level -> u_log tty loglevel level path func line format args = Some [].
Proof. intros H. unfold u_log, check_loglevel. now destruct (N.ltb_spec loglevel level); [|lia]. Qed.

(** ** u_log_init *)
Lemma init_selected tty getenv level : selected getenv level -> u_log_init tty getenv = (level, Some []).
Proof.
  unfold selected, u_log_init. destruct getenv as [s|]; [|now intros ->].
  intros [(-> & ->)|[(-> & ->)|[([-> | ->] & ->)|([-> | ->] & ->)]]]; reflexivity.
Qed.
Lemma init_unknown tty s : (forall level, ~ selected (Some s) level) ->
  u_log_init tty (Some s) = (U_LOG_INFO, Some (header tty U_LOG_WARN (bs "log.c") (bs "u_log_init") 33 ++ (bs "unknown loglevel '" ++ s ++ bs "'") ++ trailer tty)).
Proof.
  intros Hs. cbn [selected] in Hs. unfold u_log_init.
  destruct (beq s (bs "debug")) eqn:E1; [apply beq_eq in E1; exfalso; eapply (Hs U_LOG_DEBUG); tauto|].
  destruct (beq s (bs "info")) eqn:E2; [apply beq_eq in E2; exfalso; eapply (Hs U_LOG_INFO); tauto|].
  destruct (beq s (bs "warn")) eqn:E3; [apply beq_eq in E3; exfalso; eapply (Hs U_LOG_WARN); tauto|].
  destruct (beq s (bs "warning")) eqn:E4; [apply beq_eq in E4; exfalso; eapply (Hs U_LOG_WARN); tauto|].
  destruct (beq s (bs "err")) eqn:E5; [apply beq_eq in E5; exfalso; eapply (Hs U_LOG_ERR); tauto|].
  destruct (beq s (bs "error")) eqn:E6; [apply beq_eq in E6; exfalso; eapply (Hs U_LOG_ERR); tauto|].
  cbn [orb]. f_equal. rewrite (message_complete tty U_LOG_INFO U_LOG_WARN 33 (bs "log.c") (bs "u_log_init") (bs "unknown loglevel '%s'")) with (text := bs "unknown loglevel '" ++ s ++ bs "'"); try reflexivity; try (cbv; discriminate).
  - apply free_bs. reflexivity.
  - apply free_bs. reflexivity.
  - destruct tty; apply Nat.leb_le; reflexivity.
Qed.
