(** The closing lines of csn and patchdd (C100), without the percentage. *)
From Verif Require Import Base Lib SpecBasic Utils Ui Patchdd SpecRun SpecPatch Log SpecLog LogSites Bench SpecBench SpecClosing Closing
  PfUtils PfBasic PfIO PfRead PfTarget PfSync PfPatch PfLog PfLog2 PfReport Ex12.
From Coq Require String. Import String.StringSyntax. Delimit Scope string_scope with string.
Ltac Zify.zify_post_hook ::= Z.div_mod_to_equations.
Local Open Scope N_scope.

(** ** patchdd *)
Definition fst_of {A B} (r : outcome (A * B) * world) : outcome A * world :=
  (match fst r with Ok x => Ok (fst x) | Abort => Abort | UB => UB | Halt => Halt end, snd r).
Lemma fst_bind {A B C} (m : M A) (k1 : A -> M B) (k2 : A -> M (B * C)) w : (forall a w, k1 a w = fst_of (k2 a w)) -> bind m k1 w = fst_of (bind m k2 w).
Proof. intros H. unfold bind. destruct (m w) as [[a| | |] w1]; [apply H|reflexivity..]. Qed.
Lemma run_status E argv w : patchdd_main E argv w = fst_of (patchdd_run E argv w).
Proof.
  unfold patchdd_main, patchdd_run. destruct argv as [|a0 [|sp [|dp rest]]]; try reflexivity. destruct (_ || _); [reflexivity|].
  destruct (e_open E sp) as [src|]; [|reflexivity]. destruct (e_open_rw E dp) as [dst|]; [|reflexivity].
  apply fst_bind. intros [s|] w1; [|reflexivity]. apply fst_bind. intros [d|] w2; [|reflexivity]. destruct (d <? s); [reflexivity|].
  apply fst_bind. intros [sk|] w3; [|reflexivity]. apply fst_bind. intros [|] w4; reflexivity.
Qed.
Lemma run_skipped E argv w st x w' : patchdd_run E argv w = (Ok (st, x), w') ->
  match x with
  | None => st = 1
  | Some (sk, size) => st = 0 /\ exists src dst, src_of E argv = Some src /\ dst_of E argv = Some dst /\ size = blen (w_files w src) /\ kept (w_files w src) (w_files w dst) 0 sk
  end.
Proof.
  set (post := fun r : N * option (N * N) => match snd r with
    | None => fst r = 1
    | Some (sk, size) => fst r = 0 /\ exists src dst, src_of E argv = Some src /\ dst_of E argv = Some dst /\ size = blen (w_files w src) /\ kept (w_files w src) (w_files w dst) 0 sk end).
  intros H. enough (W : wp (patchdd_run E argv) (fun r _ => post r) (fun _ _ => True) w) by (unfold wp in W; rewrite H in W; exact W). clear H.
  assert (No : post (1, None)) by reflexivity.
  unfold patchdd_run. destruct argv as [|a0 [|sp [|dp rest]]] eqn:Ea; try (apply wp_ret, No). destruct (_ || _); [apply wp_ret, No|].
  destruct (e_open E sp) as [src|] eqn:E1; [|apply wp_ret, No]. destruct (e_open_rw E dp) as [dst|] eqn:E2; [|apply wp_ret, No].
  set (s := w_files w src). set (d := w_files w dst).
  apply wp_bind. unfold fd_size at 1. unfold wp at 1.
  destruct (e_kind E src) eqn:Ks; [| |apply wp_ret, No];
  (apply wp_bind; unfold fd_size at 1; unfold wp at 1; destruct (e_kind E dst) eqn:Kd; [| |apply wp_ret, No];
  fold s d; (destruct (N.ltb_spec (blen d) (blen s)) as [Hlt|Hge]; [apply wp_ret, No|])).
  all: apply wp_bind; eapply wp_mono;
    [apply (wp_patch_loop E w src dst Hge (S (N.to_nat (blen s))) 0 0 w); [fold s; lia|lia|now left|
       constructor; [auto|reflexivity|split; auto|exists []; split; [reflexivity|]; split; [constructor|reflexivity]|apply suffix_refl|lia]]| |auto].
  all: intros [sk|] w2 HL; [|apply wp_ret, No]; destruct HL as (_ & total & -> & HK); apply wp_bind; unfold fsync, wp at 1; destruct (w_io w2) as [|[] ev]; try exact Logic.I; apply wp_ret; try exact No.
  all: split; [reflexivity|]; exists src, dst; split; [exact E1|]; split; [exact E2|]; split; [reflexivity|]; rewrite N.add_0_l; exact HK.
Qed.

(** ** Bytes kept *)
Lemma part_length off n f : off + n <= blen f -> length (part_of off n f) = N.to_nat n.
Proof. intros H. unfold part_of, slice, blen in *. rewrite firstn_length, skipn_length. lia. Qed.
Lemma kept_le s d off t : kept s d off t -> t <= blen s - off.
Proof. induction 1 as [off H|off n p t Hlt -> (Hc & _) _ IH]; [lia|]. rewrite part_length in Hc by lia. lia. Qed.
Lemma kept_all s d off t : kept s d off t -> blen s <= blen d -> off <= blen s ->
  (t = blen s - off <-> part_of off (blen s - off) s = part_of off (blen s - off) d).
Proof.
  induction 1 as [off H|off n p t Hlt -> (C1 & C2 & C3) HK IH]; intros Hsd Hoff.
  - replace (blen s - off) with 0 by lia. split; reflexivity.
  - set (n := N.min (blen s - off) 1048576) in *. pose proof (kept_le _ _ _ _ HK) as Hle. assert (Hn : off + n <= blen s) by (unfold n; lia).
    rewrite part_length in C1, C3 by lia. specialize (IH Hsd Hn).
    assert (Sp : forall f, blen s <= blen f -> part_of off (blen s - off) f = part_of off n f ++ part_of (off + n) (blen s - (off + n)) f).
    { intros f Hf. unfold part_of, slice. replace (N.to_nat (blen s - off)) with (N.to_nat n + N.to_nat (blen s - (off + n)))%nat by lia.
      replace (N.to_nat (off + n)) with (N.to_nat off + N.to_nat n)%nat by lia. generalize (N.to_nat off) (N.to_nat n) (N.to_nat (blen s - (off + n))). clear.
      intros o a b. revert o a. induction f as [|x f IH]; intros o a; [now rewrite !skipn_nil, !firstn_nil|]. destruct o as [|o]; [|apply (IH o a)]. cbn [skipn Nat.add].
      destruct a as [|a]; [reflexivity|]. cbn [firstn Nat.add skipn app]. f_equal. exact (IH 0%nat a). }
    rewrite (Sp s) by lia. rewrite (Sp d) by lia.
    assert (Ep : p = N.to_nat n <-> part_of off n s = part_of off n d).
    { split.
      - intros ->. rewrite !firstn_all2 in C2 by (rewrite part_length; lia). exact C2.
      - intros Heq. destruct (Nat.eq_dec p (N.to_nat n)) as [|Hne]; [assumption|]. exfalso. apply C3; [lia|]. now rewrite Heq. }
    split.
    + intros Ht. assert (p = N.to_nat n) by lia. assert (t = blen s - (off + n)) by lia. f_equal; [now apply Ep|now apply IH].
    + intros Heq. assert (L : length (part_of off n s) = length (part_of off n d)) by (rewrite !part_length; lia).
      assert (A : part_of off n s = part_of off n d /\ part_of (off + n) (blen s - (off + n)) s = part_of (off + n) (blen s - (off + n)) d).
      { revert L Heq. clear. generalize (part_of off n s) (part_of off n d) (part_of (off + n) (blen s - (off + n)) s) (part_of (off + n) (blen s - (off + n)) d).
        intros a b x y. revert b. induction a as [|u a IH]; intros [|v b] L H; try discriminate; [now split|]. injection H as -> H. injection L as L. destruct (IH b L H) as (-> & ->). now split. }
      destruct A as (A1 & A2). apply Ep in A1. apply IH in A2. lia.
Qed.
Lemma patchdd_skipped E argv w w' : patchdd_main E argv w = (Ok 0, w') ->
  exists src dst sk, src_of E argv = Some src /\ dst_of E argv = Some dst /\ let s := w_files w src in let d := w_files w dst in
    patchdd_run E argv w = (Ok (0, Some (sk, blen s)), w') /\ kept s d 0 sk /\ sk <= blen s /\ (sk = blen s <-> firstn (length s) d = s).
Proof.
  intros H. pose proof (patchdd_success E argv w w' H) as (src & dst & A1 & A2 & A3 & _). rewrite run_status in H. unfold fst_of in H. destruct (patchdd_run E argv w) as [[[st x]| | |] w2] eqn:Er; try discriminate.
  cbn [fst snd] in H. injection H as -> ->. pose proof (run_skipped _ _ _ _ _ _ Er) as K. destruct x as [(sk, size)|]; [|discriminate]. destruct K as (_ & src' & dst' & K1 & K2 & -> & K3).
  rewrite A1 in K1. rewrite A2 in K2. injection K1 as <-. injection K2 as <-. exists src, dst, sk. split; [exact A1|]. split; [exact A2|]. cbv zeta. split; [reflexivity|]. split; [exact K3|].
  pose proof (kept_le _ _ _ _ K3) as K4. rewrite N.sub_0_r in K4. split; [exact K4|]. pose proof (kept_all _ _ _ _ K3 A3 ltac:(lia)) as K5. rewrite N.sub_0_r in K5. rewrite K5.
  unfold part_of, slice. cbn [N.to_nat skipn]. unfold blen. rewrite Nat2N.id, firstn_all. split; congruence.
Qed.

(** ** Times *)
Lemma seconds_about a b : clock_ok a -> clock_ok b -> not_before a b -> (tv_sec b - tv_sec a < 4294967296)%Z -> about (seconds_between a b) a b.
Proof.
  unfold clock_ok, not_before, about, elapsed_ns, seconds_between, time_monotonic. intros. rewrite Z.mod_small by lia. rewrite Z2N.id by lia. lia.
Qed.
Lemma seconds_sum a b c : clock_ok a -> clock_ok b -> clock_ok c -> not_before a b -> not_before b c -> (tv_sec c - tv_sec a < 4294967296)%Z ->
  seconds_between a b + seconds_between b c = seconds_between a c.
Proof.
  unfold clock_ok, not_before, elapsed_ns, seconds_between, time_monotonic. intros. rewrite !Z.mod_small by lia. rewrite <- Z2N.inj_add by lia. f_equal. lia.
Qed.
Definition line_text (t0 t1 t2 : timespec) : N -> list bytes := run_texts (seconds_between t0 t1) (seconds_between t1 t2).
Lemma render_zu r n args : render None ([37; 122; 117] ++ r) (ALong n :: args) = option_map (app (digits 10 n)) (render None r args).
Proof. reflexivity. Qed.
Lemma run_lines_text t0 t1 t2 skipped : map (fun l => printf (s_fmt (fst l)) (snd l)) (run_lines t0 t1 t2 skipped) = map Some (line_text t0 t1 t2 skipped).
Proof.
  assert (U : forall a b n, percent_free (bs a) -> percent_free (bs b) -> printf (bs a ++ [37; 117] ++ bs b ++ []) [AInt n] = Some (bs a ++ digits 10 n ++ bs b ++ [])).
  { intros a b n Ha Hb. unfold printf. rewrite render_text by exact Ha. rewrite render_u, render_text by exact Hb. reflexivity. }
  assert (Z : forall a b n, percent_free (bs a) -> percent_free (bs b) -> printf (bs a ++ [37; 122; 117] ++ bs b ++ []) [ALong n] = Some (bs a ++ digits 10 n ++ bs b ++ [])).
  { intros a b n Ha Hb. unfold printf. rewrite render_text by exact Ha. rewrite render_zu, render_text by exact Hb. reflexivity. }
  assert (L1 : printf (s_fmt init_site) [AInt (seconds_between t0 t1)] = Some (bs "init finished after " ++ digits 10 (seconds_between t0 t1) ++ bs " seconds" ++ [])) by (exact (U "init finished after "%string " seconds"%string (seconds_between t0 t1) ltac:(apply free_bs; reflexivity) ltac:(apply free_bs; reflexivity))).
  assert (L2 : printf (s_fmt sync_site) [AInt (seconds_between t1 t2)] = Some (bs "synchronization finished after " ++ digits 10 (seconds_between t1 t2) ++ bs " seconds" ++ [])) by (exact (U "synchronization finished after "%string " seconds"%string (seconds_between t1 t2) ltac:(apply free_bs; reflexivity) ltac:(apply free_bs; reflexivity))).
  assert (L3 : printf (s_fmt skip_site) [ALong skipped] = Some (bs "skipped prefix of " ++ digits 10 skipped ++ bs " chunks" ++ [])) by (exact (Z "skipped prefix of "%string " chunks"%string skipped ltac:(apply free_bs; reflexivity) ltac:(apply free_bs; reflexivity))).
  assert (L0 : printf (bs "starting synchronization") [] = Some (bs "starting synchronization")) by (vm_compute; reflexivity).
  unfold run_lines, line_text, run_texts. rewrite !map_app. cbn [map fst snd]. rewrite L1, L2. change (s_fmt (INFO _ _ _ ?x)) with x. rewrite L0. rewrite !app_nil_r.
  destruct (0 <? skipped); cbn [map fst snd]; [|reflexivity]. rewrite L3, app_nil_r. reflexivity.
Qed.
Lemma run_lines_complete t0 t1 t2 skipped tty loglevel path : is_basename path (bs "main.c") -> U_LOG_INFO <= loglevel ->
  map (fun l => log_at (fst l) tty loglevel path (snd l)) (run_lines t0 t1 t2 skipped) =
  map Some (map (fun l => full_message (fst (fst l)) tty (snd l)) (combine (run_lines t0 t1 t2 skipped) (line_text t0 t1 t2 skipped))).
Proof.
  intros Hb Hl. pose proof (run_lines_text t0 t1 t2 skipped) as T.
  assert (S : Forall (fun l => In (fst l) sites /\ s_fmt (fst l) <> long_fmt /\ s_file (fst l) = bs "main.c" /\ s_level (fst l) = U_LOG_INFO) (run_lines t0 t1 t2 skipped)).
  { unfold run_lines. apply Forall_app. split; [|destruct (0 <? skipped); [|constructor]]; repeat (apply Forall_cons; [split; [apply mem_site_in; vm_compute; reflexivity|split; [vm_compute; discriminate|split; reflexivity]]|]); constructor. }
  revert T S. generalize (run_lines t0 t1 t2 skipped) (line_text t0 t1 t2 skipped). intros ls. induction ls as [|l ls IH]; intros [|x xs] T S; try discriminate; [reflexivity|].
  cbn [map combine fst snd] in *. injection T as T1 T2. inversion S as [|? ? (S1 & S2 & S3 & S4) S5]; subst. f_equal; [|now apply IH].
  apply site_complete; auto; [now rewrite S3|now rewrite S4].
Qed.
Lemma csn_closing t0 t1 t2 skipped tty loglevel path : clock_ok t0 -> clock_ok t1 -> clock_ok t2 -> not_before t0 t1 -> not_before t1 t2 -> (tv_sec t2 - tv_sec t0 < 4294967296)%Z ->
  is_basename path (bs "main.c") -> U_LOG_INFO <= loglevel ->
  exists n1 n2, about n1 t0 t1 /\ about n2 t1 t2 /\ about (n1 + n2) t0 t2 /\
    map (fun l => log_at (fst l) tty loglevel path (snd l)) (run_lines t0 t1 t2 skipped) =
    map (fun l => Some (full_message (fst (fst l)) tty (snd l))) (combine (run_lines t0 t1 t2 skipped) (run_texts n1 n2 skipped)).
Proof.
  intros C0 C1 C2 B1 B2 Hd Hb Hl. exists (seconds_between t0 t1), (seconds_between t1 t2).
  assert (D : (tv_sec t1 - tv_sec t0 < 4294967296 /\ tv_sec t2 - tv_sec t1 < 4294967296)%Z) by (unfold clock_ok, not_before, elapsed_ns in *; lia). destruct D as (D1 & D2).
  split; [now apply seconds_about|]. split; [now apply seconds_about|]. split; [rewrite seconds_sum by assumption; apply seconds_about; auto; unfold clock_ok, not_before, elapsed_ns in *; lia|].
  rewrite run_lines_complete by assumption. now rewrite map_map.
Qed.
