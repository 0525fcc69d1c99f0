(** casync's options (C79). *)
From Verif Require Import Base Lib Utils MainProg SpecRun SpecCasync SpecGetopt PfHttp2 PfCasync.
Local Open Scope N_scope.

(** ** Names *)
Definition value_of (o : optname) : bytes := match o with OHelp => bs "help" | OStore => bs "store" | OSeed => bs "seed" | OSeedOutput => bs "seed-output" end.
Definition takes (o : optname) : bool := match o with OHelp => false | _ => true end.
Lemma sw_prefix a b : startswith a b = true <-> exists t, a = b ++ t. Proof. apply startswith_spec. Qed.
Lemma filter_one {A} (f : A -> bool) l x : filter f l = [x] -> In x l /\ f x = true /\ forall y, In y l -> f y = true -> y = x.
Proof.
  intros H. assert (G : forall y, In y (filter f l) <-> y = x) by (intros y; rewrite H; cbn; split; [intros [|[]]; auto|auto]).
  split; [apply (filter_In f x l), G, eq_refl|]. split; [apply (filter_In f x l), G, eq_refl|]. intros y Y1 Y2. apply G, filter_In. auto.
Qed.
Lemma find_long_sound name b o : find_long name = Some (b, o) -> b = takes o /\ stands_for name (value_of o).
Proof.
  unfold find_long. destruct (filter _ long_options) as [|x r] eqn:F1.
  - destruct (filter (fun o => startswith (fst (fst o)) name) long_options) as [|x [|y r]] eqn:F2; try discriminate. intros H. injection H as <- <-.
    apply filter_one in F2 as (I1 & I2 & I3). apply sw_prefix in I2 as (t & I2).
    assert (J : forall n, In n opt_names -> exists o, In o long_options /\ fst (fst o) = n).
    { intros n Hn. change opt_names with (map (fun o : bytes * bool * optname => fst (fst o)) long_options) in Hn. apply in_map_iff in Hn as (y & Y1 & Y2). now exists y. }
    assert (V : fst (fst x) = value_of (snd x) /\ snd (fst x) = takes (snd x) /\ In (value_of (snd x)) opt_names).
    { cbn in I1. destruct I1 as [<-|[<-|[<-|[<-|[]]]]]; cbn; auto 10. }
    destruct V as (V1 & V2 & V3). split; [exact V2|]. split; [exact V3|]. right. split; [exists t; congruence|]. intros n u Hn En.
    destruct (J n Hn) as (y & Y1 & Y2). rewrite <- V1, <- Y2. f_equal. f_equal. apply I3; [exact Y1|]. apply sw_prefix. exists u. congruence.
  - intros H. injection H as <- <-. assert (I : In x (x :: r)) by now left. rewrite <- F1 in I. apply filter_In in I as (I1 & I2). apply beq_eq in I2. subst name.
    cbn in I1. destruct I1 as [<-|[<-|[<-|[<-|[]]]]]; (split; [reflexivity|]; split; [cbn; auto 10|left; reflexivity]).
Qed.
Lemma names_differ o1 o2 : value_of o1 = value_of o2 -> o1 = o2. Proof. destruct o1, o2; vm_compute; congruence. Qed.
Lemma find_long_complete name o : stands_for name (value_of o) -> find_long name = Some (takes o, o).
Proof.
  intros (_ & [-> |((t & H1) & H2)]); [destruct o; reflexivity|]. unfold find_long.
  destruct (filter (fun o0 => beq (fst (fst o0)) name) long_options) as [|x r] eqn:F1.
  - assert (G : forall y, In y long_options -> startswith (fst (fst y)) name = true <-> y = (value_of o, takes o, o)).
    { intros y Hy. rewrite sw_prefix. split; [intros (u & E)|intros ->; cbn; eauto]. specialize (H2 (fst (fst y)) u).
      cbn in Hy. destruct Hy as [<-|[<-|[<-|[<-|[]]]]]; cbn [fst] in *; specialize (H2 ltac:(cbn; auto 10) E); destruct o; try reflexivity; vm_compute in H2; discriminate. }
    assert (F : forall l, (forall y, In y l -> In y long_options) -> filter (fun o0 => startswith (fst (fst o0)) name) l =
       filter (fun y => match snd y, o with OHelp, OHelp | OStore, OStore | OSeed, OSeed | OSeedOutput, OSeedOutput => true | _, _ => false end) l).
    { induction l as [|y l IH]; intros Hl; [reflexivity|]. cbn [filter]. rewrite IH by (intros; apply Hl; now right). pose proof (G y (Hl y (or_introl eq_refl))) as Gy.
      assert (Iy := Hl y (or_introl eq_refl)). cbn in Iy. destruct Iy as [<-|[<-|[<-|[<-|[]]]]]; destruct o; cbn [snd fst] in *;
      match goal with |- context [startswith ?a ?b] => destruct (startswith a b) end; try reflexivity;
      try (destruct Gy as [Gy _]; specialize (Gy eq_refl); discriminate); destruct Gy as [_ Gy]; specialize (Gy eq_refl); discriminate. }
    rewrite F by auto. destruct o; reflexivity.
  - assert (I : In x (x :: r)) by now left. rewrite <- F1 in I. apply filter_In in I as (I1 & I2). apply beq_eq in I2.
    specialize (H2 (fst (fst x)) []). rewrite app_nil_r in H2. specialize (H2 ltac:(cbn in I1; destruct I1 as [<-|[<-|[<-|[<-|[]]]]]; cbn; auto 10) I2).
    cbn in I1. destruct I1 as [<-|[<-|[<-|[<-|[]]]]]; destruct o; try reflexivity; vm_compute in H2; discriminate.
Qed.
Lemma stands_noeq name full : stands_for name full -> ~ In 61 name.
Proof.
  intros (H & H2). assert (N : ~ In 61 full) by (cbn in H; destruct H as [<-|[<-|[<-|[<-|[]]]]]; vm_compute; intuition discriminate).
  destruct H2 as [-> |((t & ->) & _)]; [exact N|]. intros I. apply N, in_or_app. now left.
Qed.

(** ** One argument *)
Lemma strchr_none s c : ~ In c s -> strchr s c = None.
Proof. pose proof (strchr_spec s c) as H. destruct (strchr s c); [|reflexivity]. intros N. elim N. rewrite (proj1 H). apply in_or_app. right. now left. Qed.
Lemma strchr_app a c b : ~ In c a -> strchr (a ++ c :: b) c = Some (length a).
Proof.
  unfold strchr. assert (G : forall i, ~ In c a -> strchr_from (a ++ c :: b) c i = Some (i + length a)%nat); [|intros H; exact (G 0%nat H)].
  induction a as [|x a IH]; intros i H; cbn [app strchr_from length].
  - rewrite N.eqb_refl. f_equal. lia.
  - destruct (N.eqb_spec x c) as [->|]; [elim H; now left|]. rewrite IH by (intros ?; apply H; now right). f_equal. lia.
Qed.
Definition fine (os : list optres) : Prop := ~ In OptHelp os /\ ~ In OptBad os.

(** What happens to one argument. *)
Lemma go_word a l : word a -> getopt_all (a :: l) = (fst (getopt_all l), a :: snd (getopt_all l)).
Proof.
  intros H. cbn [getopt_all]. destruct (getopt_all l) as [os ns]. cbn [fst snd]. destruct H as [-> |H]; [reflexivity|].
  assert (N : startswith a (bs "-") = false).
  { destruct (startswith a (bs "-")) eqn:W; [|reflexivity]. apply sw_prefix in W as (t & W). now elim (H t). }
  assert (N2 : startswith a (bs "--") = false).
  { destruct (startswith a (bs "--")) eqn:W; [|reflexivity]. apply sw_prefix in W as (t & W). now elim (H (45 :: t)). }
  destruct (beq a (bs "--")) eqn:B; [apply beq_eq in B; now elim (H (bs "-"))|]. rewrite N2, N. reflexivity.
Qed.
Lemma go_eq n o v l : stands_for n (value_of o) -> takes o = true ->
  getopt_all ((bs "--" ++ n ++ bs "=" ++ v) :: l) = (opt_of o (Some v) :: fst (getopt_all l), snd (getopt_all l)).
Proof.
  intros H T. pose proof (find_long_complete _ _ H) as F. pose proof (stands_noeq _ _ H) as Q. cbn [getopt_all].
  destruct (beq (bs "--" ++ n ++ bs "=" ++ v) (bs "--")) eqn:B. { apply beq_eq in B. apply (f_equal (@length _)) in B. rewrite !app_length in B. cbn in B. lia. }
  rewrite (proj2 (sw_prefix (bs "--" ++ n ++ bs "=" ++ v) (bs "--")) (ex_intro _ _ eq_refl)). change (skipn 2 (bs "--" ++ n ++ bs "=" ++ v)) with (n ++ 61 :: v).
  rewrite (strchr_app _ _ _ Q), firstn_app, Nat.sub_diag, firstn_all, firstn_O, app_nil_r. cbv beta iota zeta. rewrite F, T.
  assert (skipn (S (length n)) (n ++ 61 :: v) = v) as ->. { replace (S (length n)) with (length (n ++ [61])) by (rewrite app_length; cbn; lia). replace (n ++ 61 :: v) with ((n ++ [61]) ++ v) by (rewrite <- app_assoc; reflexivity). rewrite skipn_app, skipn_all, Nat.sub_diag. reflexivity. }
  destruct (getopt_all l). reflexivity.
Qed.
Lemma stands_nonempty n f : stands_for n f -> n <> [].
Proof.
  intros (H & H2) ->. destruct H2 as [H2|(_ & H2)]; [subst f; cbn in H; destruct H as [H|[H|[H|[H|[]]]]]; discriminate|].
  pose proof (H2 (bs "help") (bs "help") (or_introl eq_refl) eq_refl) as A. pose proof (H2 (bs "store") (bs "store") (or_intror (or_introl eq_refl)) eq_refl) as B. rewrite <- A in B. discriminate.
Qed.
Lemma go_sep n o v l : stands_for n (value_of o) -> takes o = true ->
  getopt_all ((bs "--" ++ n) :: v :: l) = (opt_of o (Some v) :: fst (getopt_all l), snd (getopt_all l)).
Proof.
  intros H T. pose proof (find_long_complete _ _ H) as F. pose proof (stands_noeq _ _ H) as Q. pose proof (stands_nonempty _ _ H) as Z. cbn [getopt_all].
  destruct (beq (bs "--" ++ n) (bs "--")) eqn:B. { apply beq_eq in B. apply (f_equal (@length _)) in B. rewrite !app_length in B. destruct n; [contradiction|]. cbn in B. lia. }
  rewrite (proj2 (sw_prefix (bs "--" ++ n) (bs "--")) (ex_intro _ _ eq_refl)). change (skipn 2 (bs "--" ++ n)) with n.
  rewrite (strchr_none _ _ Q), F, T. destruct (getopt_all l). reflexivity.
Qed.

(** ** The grammar is what getopt accepts *)
Lemma fine_cons o os : o <> OptHelp -> o <> OptBad -> fine os -> fine (o :: os).
Proof. intros A B (C & D). split; intros [X|X]; auto. Qed.
Lemma line_parsed l st ws : line l st ws -> exists os, getopt_all l = (os, ws) /\ fine os /\ store_opts os = st.
Proof.
  induction 1 as [|a l st ws Ha _ (os & A & B & C)|a v l st ws Ha _ (os & A & B & C)|a v l st ws Ha _ (os & A & B & C)|a v l st ws Ha _ (os & A & B & C)|a v l st ws Ha _ (os & A & B & C)|ws].
  - exists []. repeat split; intros [].
  - exists os. rewrite (go_word _ _ Ha), A. auto.
  - exists (OptStore v :: os). destruct Ha as [Ha|Ha]; [rewrite (go_eq a OStore v l Ha eq_refl)|rewrite (go_eq a OSeed v l Ha eq_refl)]; rewrite A; (split; [reflexivity|]);
    (split; [apply fine_cons; [discriminate|discriminate|exact B]|]); cbn; now f_equal.
  - exists (OptStore v :: os). destruct Ha as [Ha|Ha]; [rewrite (go_sep a OStore v l Ha eq_refl)|rewrite (go_sep a OSeed v l Ha eq_refl)]; rewrite A; (split; [reflexivity|]);
    (split; [apply fine_cons; [discriminate|discriminate|exact B]|]); cbn; now f_equal.
  - exists (OptIgnored :: os). rewrite (go_eq a OSeedOutput v l Ha eq_refl), A. split; [reflexivity|]. split; [apply fine_cons; [discriminate|discriminate|exact B]|exact C].
  - exists (OptIgnored :: os). rewrite (go_sep a OSeedOutput v l Ha eq_refl), A. split; [reflexivity|]. split; [apply fine_cons; [discriminate|discriminate|exact B]|exact C].
  - exists []. repeat split; try (intros []).
Qed.
Lemma fine_tail o os : fine (o :: os) -> o <> OptHelp /\ o <> OptBad /\ fine os.
Proof. intros (A & B). cbn in A, B. repeat split; intros ?; [apply A|apply B|apply A|apply B]; auto. Qed.
Lemma parsed_line : forall k l os ws, (length l <= k)%nat -> getopt_all l = (os, ws) -> fine os -> line l (store_opts os) ws.
Proof.
  induction k as [|k IH]; intros l os ws Hk G F.
  - destruct l; [|cbn in Hk; lia]. injection G as <- <-. constructor.
  - destruct l as [|a l]; [injection G as <- <-; constructor|]. cbn [length] in Hk. cbn [getopt_all] in G.
    destruct (beq a (bs "--")) eqn:B1. { apply beq_eq in B1 as ->. injection G as <- <-. constructor. }
    destruct (startswith a (bs "--")) eqn:B2.
    + apply sw_prefix in B2 as (body & ->). change (skipn 2 (bs "--" ++ body)) with body in G. pose proof (strchr_spec body 61) as Q. destruct (strchr body 61) as [p|].
      * destruct Q as (Q & _). cbv beta iota zeta in G. destruct (find_long (firstn p body)) as [[[] o]|] eqn:El; [| |injection G as <- <-; elim (proj2 F); now left].
        -- apply find_long_sound in El as (T & El). destruct (getopt_all l) as [os' ns] eqn:Gl. injection G as <- <-. apply fine_tail in F as (F1 & F2 & F).
           assert (Eb : bs "--" ++ body = bs "--" ++ firstn p body ++ bs "=" ++ skipn (S p) body) by (f_equal; exact Q). rewrite Eb. specialize (IH l os' ns ltac:(lia) Gl F). destruct o; [discriminate T|..]; cbn [opt_of store_opts flat_map app].
           ++ apply line_store_eq; [now left|exact IH].
           ++ apply line_store_eq; [now right|exact IH].
           ++ apply line_ignored_eq; [exact El|exact IH].
        -- injection G as <- <-. elim (proj2 F). now left.
      * cbv beta iota zeta in G. destruct (find_long body) as [[[] o]|] eqn:El; [| |injection G as <- <-; elim (proj2 F); now left]; apply find_long_sound in El as (T & El).
        -- destruct l as [|v l]; [injection G as <- <-; elim (proj2 F); now left|]. destruct (getopt_all l) as [os' ns] eqn:Gl. injection G as <- <-. apply fine_tail in F as (F1 & F2 & F).
           specialize (IH l os' ns ltac:(cbn in Hk; lia) Gl F). destruct o; [discriminate T|..]; cbn [opt_of store_opts flat_map app].
           ++ apply line_store; [now left|exact IH].
           ++ apply line_store; [now right|exact IH].
           ++ apply line_ignored; [exact El|exact IH].
        -- destruct (getopt_all l) as [os' ns]. injection G as <- <-. destruct o; try discriminate T. elim (proj1 F). now left.
    + destruct (startswith a (bs "-") && negb (beq a (bs "-"))) eqn:B3.
      * destruct (startswith a (bs "-h")); injection G as <- <-; [elim (proj1 F)|elim (proj2 F)]; now left.
      * destruct (getopt_all l) as [os' ns] eqn:Gl. injection G as <- <-. constructor; [|apply (IH l os' ns ltac:(lia) Gl F)].
        destruct (beq a (bs "-")) eqn:B4; [left; now apply beq_eq|right]. intros t ->. rewrite (proj2 (sw_prefix (45 :: t) (bs "-")) (ex_intro _ t eq_refl)) in B3. discriminate.
Qed.
Lemma line_iff l st ws : line l st ws <-> exists os, getopt_all l = (os, ws) /\ ~ In OptHelp os /\ ~ In OptBad os /\ store_opts os = st.
Proof.
  split.
  - intros H. apply line_parsed in H as (os & A & (B & C) & D). exists os. auto.
  - intros (os & A & B & C & <-). apply (parsed_line (length l) l os ws (le_n _) A (conj B C)).
Qed.

(** ** casync *)
Lemma casync_line E argv l st ws w : beq (basename (nth 0 argv [])) (bs "casync") = true -> (3 <= length argv)%nat -> skipn 1 argv = l -> line l st ws -> (3 <= length ws)%nat ->
  nth 0 ws [] = bs "extract" -> st <> [] -> Forall (fun a => ~ mentions a) st -> (w_alloc w = [] \/ (length st <= casync_slots argv)%nat) ->
  main E argv w = main (with_driver None E) (bs "csn" :: nth (length argv - 2) argv [] :: nth (length argv - 1) argv [] :: st) w.
Proof.
  intros H1 H2 <- H3 H4 H5 H6 H7 H8. apply line_iff in H3 as (os & A & B & C & <-). 
  assert (X : extraction argv os) by (split; [exact H1|split; [exact H2|exists ws; auto]]).
  exact (casync_is_plain_csn E argv os w X H6 H7 H8).
Qed.
Lemma options_line pre st ws l : options pre st -> line l [] ws -> line (pre ++ l) st ws.
Proof. induction 1; intros Hl; cbn [app]; auto; constructor; auto. Qed.
Lemma options_length pre st : options pre st -> (length st <= length pre)%nat.
Proof. induction 1; cbn [length]; lia. Qed.
(** The documented form. *)
Lemma casync_documented E prog pre index target st w : beq (basename prog) (bs "casync") = true -> options pre st -> st <> [] -> word index -> word target ->
  Forall (fun a => ~ mentions a) st -> w_alloc w = [] \/ length pre = (2 * length st)%nat ->
  main E (prog :: pre ++ [bs "extract"; index; target]) w = main (with_driver None E) (bs "csn" :: index :: target :: st) w.
Proof.
  intros H1 H2 H3 H4 H5 H6 H7. set (argv := prog :: pre ++ [bs "extract"; index; target]).
  assert (La : length argv = (4 + length pre)%nat) by (unfold argv; cbn [length]; rewrite app_length; cbn [length]; lia).
  assert (N1 : nth (length argv - 2) argv [] = index).
  { rewrite La. unfold argv. replace (4 + length pre - 2)%nat with (S (length pre + 1)) by lia. cbn [nth]. rewrite app_nth2_plus. reflexivity. }
  assert (N2 : nth (length argv - 1) argv [] = target).
  { rewrite La. unfold argv. replace (4 + length pre - 1)%nat with (S (length pre + 2)) by lia. cbn [nth]. rewrite app_nth2_plus. reflexivity. }
  rewrite (casync_line E argv (pre ++ [bs "extract"; index; target]) st [bs "extract"; index; target] w); auto.
  - now rewrite N1, N2.
  - rewrite La. lia.
  - apply options_line; [exact H2|]. apply line_word; [right; intros t; discriminate|]. apply line_word; [exact H4|]. apply line_word; [exact H5|constructor].
  - destruct H7 as [H7|H7]; [now left|right]. unfold casync_slots. rewrite La, H7. replace (4 + 2 * length st - 4)%nat with (length st * 2)%nat by lia. rewrite Nat.div_mul by lia. lia.
Qed.
