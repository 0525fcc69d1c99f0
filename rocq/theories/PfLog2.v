(** Proofs about the messages of the program and about hexdump. *)
From Verif Require Import Base Lib Utils Log SpecLog LogSites PfUtils PfLog.
Local Open Scope N_scope.

(** ** All messages *)
Definition long_fmt : bytes := bs "chunker parameter mismatch between sideload index (%u / %u / %u)and chosen parameters (%u / %u / %u)".
Definition fits (s : site) : bool :=
  Nat.leb (length (header true (s_level s) (s_file s) (s_func s) (s_line s) ++ s_fmt s ++ trailer true)) 127
  && Nat.leb (length (header false (s_level s) (s_file s) (s_func s) (s_line s) ++ s_fmt s ++ trailer false)) 127.
Definition proper (s : site) : bool :=
  (s_level s <=? 3) && (s_line s <? 2147483648) && forallb (fun c => negb (c =? 37)) (s_file s) && forallb (fun c => negb (c =? 37)) (s_func s).
Definition closed_cut (tty : bool) (s : site) : bool :=
  let k := (127 - length (header tty (s_level s) (s_file s) (s_func s) (s_line s)))%nat in
  Nat.leb (length (header tty (s_level s) (s_file s) (s_func s) (s_line s))) 127 && Nat.leb k (length (s_fmt s)) &&
  match after None (firstn k (s_fmt s)) with None => true | Some _ => false end.
Lemma sites_checked : forallb (fun s => proper s && (fits s || (beq (s_fmt s) long_fmt && closed_cut true s && closed_cut false s))) sites = true.
Proof. vm_compute. reflexivity. Qed.

Lemma site_proper s : In s sites -> s_level s <= 3 /\ s_line s < 2147483648 /\ percent_free (s_file s) /\ percent_free (s_func s) /\
  (fits s = true \/ s_fmt s = long_fmt /\ forall tty, closed_cut tty s = true).
Proof.
  intros Hin. pose proof sites_checked as C. rewrite forallb_forall in C. specialize (C s Hin). apply andb_prop in C as (P & F). unfold proper in P. apply andb_prop in P as (P & P4). apply andb_prop in P as (P & P3). apply andb_prop in P as (P1 & P2).
  apply N.leb_le in P1. apply N.ltb_lt in P2. repeat split; auto using free_bs. apply orb_prop in F as [F|F]; [now left|right]. apply andb_prop in F as (F & F3). apply andb_prop in F as (F1 & F2). apply beq_eq in F1. split; [exact F1|]. now intros [|].
Qed.
Lemma site_complete s tty loglevel path args text : In s sites -> s_fmt s <> long_fmt -> is_basename path (s_file s) -> s_level s <= loglevel -> printf (s_fmt s) args = Some text ->
  log_at s tty loglevel path args = Some (full_message s tty text).
Proof.
  intros Hin Hf Hb Hl R. destruct (site_proper s Hin) as (P1 & P2 & P3 & P4 & [F|(F & _)]); [|contradiction].
  pose proof (basename_unique _ _ _ (log_file_spec path) Hb) as Ef. unfold log_at, full_message. rewrite <- Ef in *.
  apply message_complete; auto. unfold fits in F. rewrite <- Ef in F. apply andb_prop in F as (F1 & F2). destruct tty; now apply Nat.leb_le.
Qed.
Lemma site_defined s tty loglevel path args text : In s sites -> is_basename path (s_file s) -> printf (s_fmt s) args = Some text ->
  exists out, log_at s tty loglevel path args = Some out.
Proof.
  intros Hin Hb R. destruct (N.le_gt_cases (s_level s) loglevel) as [Hl|Hl]; [|exists []; now apply message_hidden].
  destruct (site_proper s Hin) as (P1 & P2 & P3 & P4 & [F|(F & C)]).
  - pose proof (basename_unique _ _ _ (log_file_spec path) Hb) as Ef. eexists. unfold log_at. rewrite <- Ef in *.
    apply message_complete; eauto. unfold fits in F. rewrite <- Ef in F. apply andb_prop in F as (F1 & F2). destruct tty; now apply Nat.leb_le.
  - pose proof (basename_unique _ _ _ (log_file_spec path) Hb) as Ef. specialize (C tty). unfold closed_cut in C. rewrite <- Ef in *.
    set (h := header tty (s_level s) (log_file path) (s_func s) (s_line s)) in *. set (k := (127 - length h)%nat) in *.
    apply andb_prop in C as (C & C2). apply andb_prop in C as (C0 & C1). apply Nat.leb_le in C0, C1. destruct (after None (firstn k (s_fmt s))) eqn:A; [discriminate|].
    destruct (message_cut tty loglevel (s_level s) (s_line s) path (s_func s) (s_fmt s) P1 P2 Hl P3 P4 args text (firstn k (s_fmt s)) (skipn k (s_fmt s)) R (eq_sym (firstn_skipn _ _))) as (sh & hi & E & _).
    + rewrite app_length, firstn_length. fold h. unfold k in *. lia.
    + exact A.
    + eexists. exact E.
Qed.

(** ** hexdump *)
Lemma hex_byte b : b < 256 -> printf (bs " %02x") [AInt b] = Some (32 :: hex2 b).
Proof.
  intros H. assert (K : forallb (fun b => match printf (bs " %02x") [AInt b] with Some s => beq s (32 :: hex2 b) | None => false end) (map N.of_nat (seq 0 256)) = true) by (vm_compute; reflexivity).
  rewrite forallb_forall in K. specialize (K b). assert (I : In b (map N.of_nat (seq 0 256))) by (apply in_map_iff; exists (N.to_nat b); split; [lia|apply in_seq; lia]).
  specialize (K I). destruct (printf (bs " %02x") [AInt b]) as [s|]; [|discriminate]. apply beq_eq in K. now subst.
Qed.
Lemma hex_offset i : printf (bs "  %04zx ") [ALong i] = Some (bs "  " ++ offset_text i ++ bs " ").
Proof. reflexivity. Qed.
Lemma glyph_char b : hd_char b = glyph b.
Proof. unfold hd_char, glyph. destruct (N.ltb_spec b 32), (N.ltb_spec 126 b), (N.leb_spec 32 b), (N.leb_spec b 126); cbn; lia. Qed.
Lemma glyph_nz b : glyph b <> 0.
Proof. unfold glyph. destruct (N.leb_spec 32 b); cbn; [destruct (b <=? 126); lia|lia]. Qed.

Lemma hd_string_row cur rest : Forall (fun c => c <> 0) cur -> hd_string (map Some cur ++ Some 0 :: rest) = Some cur.
Proof. induction 1 as [|c l Hc Hl IH]; cbn; [reflexivity|]. destruct (N.eqb_spec c 0); [contradiction|]. now rewrite IH. Qed.
Lemma hd_flush_row cur rest : Forall (fun c => c <> 0) cur -> hd_flush (map Some cur ++ Some 0 :: rest) = Some (bs "  " ++ cur ++ NL).
Proof. intros H. unfold hd_flush. rewrite hd_string_row by exact H. transitivity (render None (bs "  " ++ [37; 115] ++ NL ++ []) [AStr cur]); [reflexivity|]. now rewrite render_text, render_s by (apply free_bs; reflexivity). Qed.
Lemma set_nth_app {A} (a : list A) v x r : set_nth (length a) v (a ++ x :: r) = a ++ v :: r.
Proof. induction a; cbn; [reflexivity|now rewrite IHa]. Qed.
Lemma set_nth_app1 {A} (a : list A) v x y r : set_nth (length a + 1) v (a ++ x :: y :: r) = a ++ x :: v :: r.
Proof. induction a; cbn; [reflexivity|now rewrite IHa]. Qed.

(** the text of the rest of a dump, [cur] being the glyphs of the current row *)
Fixpoint rest_of (data : bytes) (i : N) (cur : bytes) : bytes :=
  match data with
  | [] => repeat 32 (3 * N.to_nat ((16 - i mod 16) mod 16)) ++ bs "  " ++ cur ++ NL
  | b :: r => if i mod 16 =? 0
              then (if i =? 0 then [] else bs "  " ++ cur ++ NL) ++ (bs "  " ++ offset_text i ++ bs " ") ++ (32 :: hex2 b) ++ rest_of r (i + 1) [glyph b]
              else (32 :: hex2 b) ++ rest_of r (i + 1) (cur ++ [glyph b])
  end.
Lemma mod_succ i : (i + 1) mod 16 = if i mod 16 =? 15 then 0 else i mod 16 + 1.
Proof.
  assert (D : i = 16 * (i / 16) + i mod 16) by (apply N.div_mod; lia). assert (M : i mod 16 < 16) by (apply N.mod_lt; lia).
  destruct (N.eqb_spec (i mod 16) 15) as [E|E]; symmetry.
  - apply N.mod_unique with (q := i / 16 + 1); lia.
  - apply N.mod_unique with (q := i / 16); lia.
Qed.
(** how many glyphs the buffer holds after [i] bytes *)
Definition fill (i : N) : nat := if i =? 0 then 0 else if i mod 16 =? 0 then 16 else N.to_nat (i mod 16).
Lemma hd_loop_text data : bytes_ok data -> forall i cur tail, (i <> 0 \/ data <> []) -> Forall (fun c => c <> 0) cur -> (length cur = fill i)%nat -> (length tail = 16 - length cur)%nat ->
  forall buff, (i = 0 /\ length buff = 17%nat \/ i <> 0 /\ buff = map Some cur ++ Some 0 :: tail) ->
  hd_loop data i buff = Some (rest_of data i cur).
Proof.
  induction 1 as [|b r Hb Hr IH]; intros i cur tail Hne Hc Hl Ht buff HB.
  - destruct HB as [(-> & _)|(Hi & ->)]; [destruct Hne; contradiction|]. cbn [hd_loop rest_of]. rewrite hd_flush_row by exact Hc. reflexivity.
  - cbn [hd_loop rest_of]. rewrite hex_byte by exact Hb. rewrite glyph_char. set (g := glyph b) in *. assert (Hg : g <> 0) by apply glyph_nz.
    assert (Hi1 : i + 1 <> 0) by lia. pose proof (mod_succ i) as Hm. assert (Hz : 0 mod 16 = 0) by reflexivity.
    destruct (N.eqb_spec (i mod 16) 0) as [E|E].
    + rewrite E. cbn [N.to_nat Nat.add]. rewrite hex_offset.
      assert (Hf : oapp (if i =? 0 then Some [] else hd_flush buff) (Some (bs "  " ++ offset_text i ++ bs " ")) = Some ((if i =? 0 then [] else bs "  " ++ cur ++ NL) ++ (bs "  " ++ offset_text i ++ bs " "))).
      { destruct HB as [(-> & _)|(Hi & ->)]; [reflexivity|]. destruct (N.eqb_spec i 0); [contradiction|]. now rewrite hd_flush_row by exact Hc. }
      rewrite Hf. assert (Hb17 : length buff = 17%nat). { destruct HB as [(_ & X)|(_ & ->)]; [exact X|]. rewrite app_length, map_length. cbn [length]. assert (X : (length cur <= 16)%nat) by (rewrite Hl; unfold fill; rewrite E; destruct (i =? 0); cbn; lia). lia. }
      destruct buff as [|x0 [|x1 t]]; try discriminate. cbn [set_nth]. cbn [length] in Hb17.
      erewrite (IH (i + 1) [g] t); [cbn [oapp]; now rewrite <- !app_assoc|now left|now constructor|..].
      * unfold fill. destruct (N.eqb_spec (i + 1) 0); [lia|]. rewrite Hm, E. reflexivity.
      * cbn [length]. lia.
      * right. auto.
    + destruct HB as [(-> & _)|(Hi & ->)]; [contradiction|]. assert (Ml : i mod 16 < 16) by (apply N.mod_lt; lia).
      assert (Hl' : length cur = N.to_nat (i mod 16)) by (rewrite Hl; unfold fill; destruct (N.eqb_spec i 0); [contradiction|]; destruct (N.eqb_spec (i mod 16) 0); [contradiction|reflexivity]).
      destruct tail as [|y tl]; [cbn [length] in Ht; lia|]. rewrite <- Hl'. rewrite <- (map_length Some cur), set_nth_app, set_nth_app1.
      replace (map Some cur ++ Some g :: Some 0 :: tl) with (map Some (cur ++ [g]) ++ Some 0 :: tl) by (rewrite map_app, <- app_assoc; reflexivity).
      erewrite (IH (i + 1) (cur ++ [g]) tl); [reflexivity|now left|apply Forall_app; split; [exact Hc|now constructor]|..].
      * rewrite app_length. cbn [length]. unfold fill. destruct (N.eqb_spec (i + 1) 0); [lia|]. rewrite Hm. destruct (N.eqb_spec (i mod 16) 15) as [E15|E15]; [rewrite Hl', E15; reflexivity|].
        destruct (N.eqb_spec (i mod 16 + 1) 0); lia.
      * rewrite app_length. cbn [length] in *. lia.
      * right. auto.
Qed.

(** in rows *)
Lemma rest_part r more : forall i cur, i mod 16 <> 0 -> (N.to_nat (i mod 16) + length r <= 16)%nat ->
  rest_of (r ++ more) i cur = flat_map (fun b => 32 :: hex2 b) r ++ rest_of more (i + N.of_nat (length r)) (cur ++ map glyph r).
Proof.
  induction r as [|b r IH]; intros i cur Hi Hl.
  - cbn [app flat_map length map]. now rewrite N.add_0_r, app_nil_r.
  - cbn [app rest_of flat_map]. destruct (N.eqb_spec (i mod 16) 0); [contradiction|]. cbn [length] in Hl. pose proof (mod_succ i) as Hm.
    rewrite <- app_assoc. f_equal. destruct r as [|b' r].
    + cbn [app flat_map length map]. f_equal. 
    + cbn [length] in Hl. rewrite IH.
      * replace (i + 1 + N.of_nat (length (b' :: r))) with (i + N.of_nat (length (b :: b' :: r))) by (cbn [length]; lia). cbn [map]. rewrite <- app_assoc. reflexivity.
      * rewrite Hm. destruct (N.eqb_spec (i mod 16) 15); lia.
      * cbn [length]. rewrite Hm. destruct (N.eqb_spec (i mod 16) 15); lia.
Qed.
Definition flush (i : N) (cur : bytes) : bytes := if i =? 0 then [] else bs "  " ++ cur ++ NL.
Lemma rest_start l more i cur : i mod 16 = 0 -> l <> [] -> (length l <= 16)%nat ->
  rest_of (l ++ more) i cur = flush i cur ++ bs "  " ++ offset_text i ++ bs " " ++ flat_map (fun b => 32 :: hex2 b) l ++ rest_of more (i + N.of_nat (length l)) (map glyph l).
Proof.
  intros Hi Hl Hn. destruct l as [|b r]; [contradiction|]. cbn [app rest_of flat_map map]. rewrite Hi. cbn [N.eqb]. fold (flush i cur). cbn [length] in Hn.
  destruct r as [|b' r].
  - cbn [app flat_map length map]. rewrite <- !app_assoc. reflexivity.
  - pose proof (mod_succ i) as Hm. rewrite Hi in Hm. cbn in Hm. rewrite rest_part; [|rewrite Hm; discriminate|rewrite Hm; cbn [length] in *; lia].
    rewrite <- !app_assoc. do 5 f_equal. replace (i + N.of_nat (length (b :: b' :: r))) with (i + 1 + N.of_nat (length (b' :: r))) by (cbn [length]; lia). reflexivity.
Qed.
Lemma mod_add i k : i mod 16 = 0 -> k < 16 -> (i + k) mod 16 = k.
Proof. intros Hi Hk. assert (D : i = 16 * (i / 16) + i mod 16) by (apply N.div_mod; lia). symmetry. apply N.mod_unique with (q := i / 16); lia. Qed.
Lemma rest_rows n : forall data i cur, i mod 16 = 0 -> data <> [] -> n_rows data = n -> rest_of data i cur = flush i cur ++ rows n i data.
Proof.
  induction n as [|n IH]; intros data i cur Hi Hd Hn.
  - unfold n_rows in Hn. destruct data; [contradiction|]. cbn [length] in Hn. apply Nat.div_small_iff in Hn; lia.
  - cbn [rows]. unfold row. set (l := firstn 16 data). assert (El : data = l ++ skipn 16 data) by (symmetry; apply firstn_skipn).
    assert (Hl : l <> []) by (unfold l; destruct data; [contradiction|discriminate]). assert (Hl16 : (length l <= 16)%nat) by (unfold l; rewrite firstn_length; lia).
    rewrite El at 1. rewrite rest_start by assumption. f_equal. rewrite <- !app_assoc. do 4 f_equal.
    destruct (skipn 16 data) as [|b r] eqn:Es.
    + assert (Hlen : (length data <= 16)%nat). { pose proof (skipn_length 16 data) as X. rewrite Es in X. cbn [length] in X. lia. }
      assert (n = 0)%nat as ->. { unfold n_rows in Hn. destruct data as [|d0 data]; [contradiction|]. cbn [length] in *. assert (X : ((S (length data) + 15) / 16 < 2)%nat) by (apply Nat.div_lt_upper_bound; lia). lia. }
      cbn [rows rest_of]. rewrite app_nil_r. assert (Ld : length l = length data) by (rewrite El, app_nil_r; reflexivity).
      destruct (Nat.eq_dec (length l) 16) as [E16|E16].
      * rewrite E16. cbn [Nat.sub]. replace ((i + N.of_nat 16) mod 16) with 0; [repeat rewrite <- app_assoc; reflexivity|].
        symmetry. change (N.of_nat 16) with (1 * 16). rewrite N.mod_add by discriminate. exact Hi.
      * rewrite (mod_add i) by (assumption || lia). replace (N.to_nat ((16 - N.of_nat (length l)) mod 16)) with (16 - length l)%nat; [repeat rewrite <- app_assoc; reflexivity|].
        destruct l as [|l0 l1]; [contradiction|]. rewrite N.mod_small by (cbn [length]; lia). lia.
    + assert (L16 : length l = 16%nat). { unfold l. rewrite firstn_length. pose proof (skipn_length 16 data) as X. rewrite Es in X. cbn [length] in X. lia. }
      rewrite L16. cbn [Nat.sub Nat.mul repeat app]. rewrite IH.
      * change (N.of_nat 16) with 16. unfold flush. destruct (N.eqb_spec (i + 16) 0); [lia|]. repeat rewrite <- app_assoc; reflexivity.
      * change (N.of_nat 16) with (1 * 16). rewrite N.mod_add by discriminate. exact Hi.
      * discriminate.
      * rewrite <- Es. unfold n_rows in *. rewrite skipn_length. assert (X : (16 <= length data)%nat) by (rewrite El, app_length; lia).
        replace (length data + 15)%nat with (length data - 16 + 15 + 1 * 16)%nat in Hn by lia. rewrite Nat.div_add in Hn by lia. lia.
Qed.
Lemma hexdump_rows data : bytes_ok data -> data <> [] -> hexdump data = Some (rows (n_rows data) 0 data).
Proof.
  intros Hb Hd. unfold hexdump. rewrite (hd_loop_text data Hb 0 [] (repeat None 16)); [rewrite (rest_rows (n_rows data)) by auto; reflexivity|now right|constructor|reflexivity|reflexivity|]. left. auto.
Qed.
Lemma hexdump_nothing : hexdump [] = None. Proof. reflexivity. Qed.
