(** Proofs about csn-bench. *)
From Verif Require Import Base Lib Utils Sha Discr Chunker SpecChunker Bench SpecBench PfUtils PfBasic PfChunker PfScan.
Local Open Scope N_scope.

(** ** time_delta_ms *)
Lemma delta_close s e : clock_ok s -> clock_ok e -> (0 <= elapsed_ns s e)%Z -> (tv_sec e - tv_sec s < 18446744073709551)%Z ->
  (Z.abs (1000000 * Z.of_N (time_delta_ms s e) - elapsed_ns s e) < 1000000)%Z.
Proof.
  unfold clock_ok, elapsed_ns, time_delta_ms. destruct s as [ss sn], e as [es en]. cbn [tv_sec tv_nsec]. intros (H1 & H2) (H3 & H4) H5 H6.
  assert (D : (0 <= es - ss)%Z) by lia.
  rewrite (Z.mod_small (es - ss)) by lia. rewrite (Z.mod_small ((es - ss) * 1000)) by lia.
  pose proof (Z.quot_rem' (en - sn) 1000000) as Q. assert (R : (Z.abs (Z.rem (en - sn) 1000000) < 1000000)%Z) by (pose proof (Z.rem_bound_abs (en - sn) 1000000 ltac:(lia)); lia).
  set (q := Z.quot (en - sn) 1000000) in *. set (r := Z.rem (en - sn) 1000000) in *.
  assert (S0 : (0 <= r \/ r <= 0)%Z) by lia.
  assert (Hr : (0 <= en - sn -> 0 <= r /\ 0 <= q)%Z) by (intros; split; [apply Z.rem_nonneg; lia|apply Z.quot_pos; lia]).
  assert (Hl : (en - sn <= 0 -> r <= 0)%Z) by (intros; apply Z.rem_nonpos; lia).
  assert (B : (0 <= (es - ss) * 1000 + q < 18446744073709551616)%Z) by lia.
  rewrite Z.mod_small by exact B. rewrite Z2N.id by lia. lia.
Qed.
Lemma delta_ten s e : clock_ok s -> clock_ok e -> time_up s e = true -> (tv_sec e - tv_sec s < 18446744073709551)%Z -> 9000 <= time_delta_ms s e.
Proof.
  intros Hs He Hu Hb. unfold time_up in Hu. apply Z.leb_le in Hu. pose proof (delta_close s e Hs He) as C. unfold clock_ok, elapsed_ns in *. lia.
Qed.

(** ** The generator *)
Lemma word_lt x : x < M32 <-> forall i, 32 <= i -> N.testbit x i = false.
Proof.
  split.
  - intros H i Hi. rewrite <- (N.mod_small x (2 ^ 32)) by exact H. now apply N.mod_pow2_bits_high.
  - intros H. change M32 with (2 ^ 32). assert (E : x = x mod 2 ^ 32); [|rewrite E; now apply N.mod_lt].
    apply N.bits_inj. intros i. destruct (N.lt_ge_cases i 32) as [L|L]; [now rewrite N.mod_pow2_bits_low|]. rewrite N.mod_pow2_bits_high by exact L. now apply H.
Qed.
Definition left_step (k x : N) : N := N.lxor x (N.shiftl x k mod M32).
Definition right_step (k x : N) : N := N.lxor x (N.shiftr x k).
Lemma left_bits k x i : N.testbit (left_step k x) i = xorb (N.testbit x i) (if (k <=? i) && (i <? 32) then N.testbit x (i - k) else false).
Proof.
  unfold left_step. rewrite N.lxor_spec. f_equal. change M32 with (2 ^ 32). destruct (N.ltb_spec i 32) as [L|L].
  - rewrite N.mod_pow2_bits_low by exact L. destruct (N.leb_spec k i) as [K|K]; cbn [andb]; [now rewrite N.shiftl_spec_high'|now rewrite N.shiftl_spec_low].
  - rewrite N.mod_pow2_bits_high by exact L. now rewrite andb_false_r.
Qed.
Lemma left_lt k x : x < M32 -> left_step k x < M32.
Proof.
  intros H. apply word_lt. intros i Hi. rewrite left_bits. rewrite (proj1 (word_lt x) H i Hi). destruct (N.ltb_spec i 32); [lia|]. now rewrite andb_false_r.
Qed.
Lemma left_inj k x y : 0 < k -> left_step k x = left_step k y -> x = y.
Proof.
  intros Hk H. apply N.bits_inj. assert (G : forall n i, (N.to_nat i < n)%nat -> N.testbit x i = N.testbit y i).
  { induction n as [|n IH]; intros i Hi; [lia|]. assert (E : N.testbit (left_step k x) i = N.testbit (left_step k y) i) by now rewrite H. rewrite !left_bits in E.
    destruct (N.leb_spec k i) as [K|K]; cbn [andb] in E; [|now rewrite !xorb_false_r in E]. destruct (i <? 32); [|now rewrite !xorb_false_r in E].
    rewrite (IH (i - k)) in E by lia. destruct (N.testbit y (i - k)), (N.testbit x i), (N.testbit y i); cbn in E; congruence. }
  intros i. apply (G (S (N.to_nat i))). lia.
Qed.
Lemma right_bits k x i : N.testbit (right_step k x) i = xorb (N.testbit x i) (N.testbit x (i + k)).
Proof. unfold right_step. now rewrite N.lxor_spec, N.shiftr_spec'. Qed.
Lemma right_lt k x : x < M32 -> right_step k x < M32.
Proof. intros H. apply word_lt. intros i Hi. rewrite right_bits, !(proj1 (word_lt x) H) by lia. reflexivity. Qed.
Lemma right_inj k x y : 0 < k -> x < M32 -> y < M32 -> right_step k x = right_step k y -> x = y.
Proof.
  intros Hk Hx Hy H. apply N.bits_inj. assert (G : forall n i, 32 - i <= N.of_nat n -> N.testbit x i = N.testbit y i).
  { induction n as [|n IH]; intros i Hi; [now rewrite (proj1 (word_lt x) Hx i), (proj1 (word_lt y) Hy i) by lia|].
    destruct (N.lt_ge_cases i 32) as [L|L]; [|now rewrite (proj1 (word_lt x) Hx i), (proj1 (word_lt y) Hy i) by lia].
    assert (E : N.testbit (right_step k x) i = N.testbit (right_step k y) i) by now rewrite H. rewrite !right_bits in E. rewrite (IH (i + k)) in E by lia.
    destruct (N.testbit y (i + k)), (N.testbit x i), (N.testbit y i); cbn in E; congruence. }
  intros i. apply (G 32%nat). lia.
Qed.
Lemma xorshift_steps a : xorshift32 a = left_step 5 (right_step 17 (left_step 13 a)). Proof. reflexivity. Qed.
Lemma xorshift_lt a : a < M32 -> xorshift32 a < M32.
Proof. intros H. rewrite xorshift_steps. now apply left_lt, right_lt, left_lt. Qed.
Lemma xorshift_inj a b : a < M32 -> b < M32 -> xorshift32 a = xorshift32 b -> a = b.
Proof.
  intros Ha Hb H. rewrite !xorshift_steps in H. apply left_inj in H; [|lia]. apply right_inj in H; [|lia|now apply left_lt..]. apply left_inj in H; [exact H|lia].
Qed.
Lemma xorshift_run n : forall a, a < M32 -> a <> 0 -> iterate xorshift32 n a <> 0.
Proof.
  induction n as [|n IH]; cbn [iterate]; intros a Ha Hz; [exact Hz|]. apply IH; [now apply xorshift_lt|].
  intros E. apply Hz. apply (xorshift_inj a 0 Ha ltac:(reflexivity)). exact E.
Qed.

(** ** The chunk benchmark *)
Lemma fill_stream n : forall a, fill_words n a = (stream n a, iterate xorshift32 n a).
Proof. induction n as [|n IH]; intros a; cbn [fill_words stream iterate]; [reflexivity|]. now rewrite IH. Qed.
Lemma stream_length n : forall a, length (stream n a) = (4 * n)%nat.
Proof. induction n as [|n IH]; intros a; cbn [stream]; [reflexivity|]. rewrite app_length, IH. cbn [word_bytes length]. lia. Qed.
Lemma stream_app n m : forall a, stream (n + m) a = stream n a ++ stream m (iterate xorshift32 n a).
Proof. induction n as [|n IH]; intros a; cbn [stream iterate Nat.add app]; [reflexivity|]. now rewrite IH, app_assoc. Qed.
Lemma iterate_add {A} (f : A -> A) n m : forall x, iterate f (n + m) x = iterate f m (iterate f n x).
Proof. induction n as [|n IH]; intros x; cbn; auto. Qed.

Section Rounds.
Variables (E : env) (p : params) (D : N).
Hypothesis Hd : disc_of p D.

Definition state_ok (c : chunker) (done : list bytes) (cur : bytes) : Prop := holds p D c cur /\ open_end p D cur /\ Forall (complete p D) done.
Lemma inner_ok : forall fuel c buf done cur, state_ok c done cur -> (length buf < fuel)%nat ->
  exists c' done' cur', bench_inner E fuel c buf (map (e_H E) done) = Ok (c', map (e_H E) done') /\ state_ok c' done' cur' /\ concat done' ++ cur' = concat done ++ cur ++ buf.
Proof.
  induction fuel as [|fuel IH]; intros c buf done cur (Hh & Ho & Hdn) Hf; [lia|]. cbn [bench_inner].
  destruct buf as [|b0 r] eqn:Eb; [exists c, done, cur; rewrite app_nil_r; repeat split; auto; apply Hh|]. rewrite <- Eb in *.
  destruct (chunker_scan_spec p D D (conj Hd eq_refl) c cur buf Hh) as (res & c1 & -> & Hr).
  { intros j Hj. apply (proj1 (first_cut_none _ _ _) Ho). lia. }
  destruct res as [n|].
  - destruct Hr as (Ln & Hh1 & Hc). assert (Hs : c_sha c1 = cur ++ firstn n buf) by apply Hh1. unfold chunker_get_id. rewrite Hs.
    destruct (IH (chunker_reset c1) (skipn n buf) (done ++ [cur ++ firstn n buf]) []) as (c' & done' & cur' & E1 & S1 & C1).
    + split; [eapply holds_reset; exact Hh1|]. split; [apply open_nil|]. apply Forall_app. auto.
    + rewrite skipn_length. assert (0 < n)%nat; [|lia]. destruct n; [|lia]. cbn [firstn] in Hc. rewrite app_nil_r in Hc. unfold complete in Hc. unfold open_end in Ho. congruence.
    + rewrite map_app in E1. exists c', done', cur'. split; [exact E1|]. split; [exact S1|]. rewrite C1, concat_app. cbn [concat app]. rewrite app_nil_r. rewrite <- !app_assoc, firstn_skipn. reflexivity.
  - destruct Hr as (Hh1 & Ho1). exists c1, done, (cur ++ buf). repeat split; auto; apply Hh1.
Qed.

Variables (sz : nat) (start : timespec).
Hypothesis (Hsz : (sz mod 4 = 0)%nat) (Hst : clock_ok start).
Definition round_result (rng : N) (count : N) (done0 : list bytes) (cur0 : bytes) (bufs : list bytes) (r : chunk_bench) : Prop :=
  exists n, cb_count r = count + N.of_nat n /\ (0 < n)%nat /\ cb_bufs r = bufs ++ map (fun i => stream (sz / 4) (iterate xorshift32 (i * (sz / 4)) rng)) (seq 0 n) /\
    9000 <= cb_ms r /\
    exists done cur, concat done ++ cur = concat done0 ++ cur0 ++ stream (n * (sz / 4)) rng /\ Forall (complete p D) done /\ open_end p D cur /\ cb_ids r = map (e_H E) done.
Lemma rounds_ok : forall clocks rng c count done cur bufs, state_ok c done cur -> Forall (fun t => clock_ok t /\ (tv_sec t - tv_sec start < 18446744073709551)%Z) clocks ->
  Exists (fun t => time_up start t = true) clocks ->
  exists r, bench_rounds E sz start clocks rng c count (map (e_H E) done) bufs = Ok r /\ round_result rng count done cur bufs r.
Proof.
  induction clocks as [|now clocks IH]; intros rng c count done cur bufs Hc Hall Hex; [inversion Hex|]. inversion Hall as [|? ? (Hn1 & Hn2) Hall']; subst.
  cbn [bench_rounds]. unfold xorshift32_fill. rewrite Hsz. cbn [Nat.eqb]. rewrite fill_stream.
  destruct (inner_ok (S (length (stream (sz / 4) rng))) c (stream (sz / 4) rng) done cur Hc ltac:(lia)) as (c' & done' & cur' & -> & Hc' & Hcat).
  destruct (time_up start now) eqn:Eu.
  - eexists. split; [reflexivity|]. exists 1%nat. cbn [cb_count cb_bufs cb_ms cb_ids seq map]. split; [lia|]. split; [lia|]. split; [reflexivity|]. split; [now apply delta_ten|].
    exists done', cur'. rewrite Nat.mul_1_l. destruct Hc' as (_ & Ho & Hdn). auto.
  - inversion Hex as [? ? X|? ? Hex']; subst; [congruence|].
    destruct (IH (iterate xorshift32 (sz / 4) rng) c' (count + 1) done' cur' (bufs ++ [stream (sz / 4) rng]) Hc' Hall' Hex') as (r & Er & n & R1 & R2 & R3 & R4 & d2 & u2 & R5 & R6 & R7 & R8).
    exists r. split; [exact Er|]. exists (S n). split; [lia|]. split; [lia|]. split.
    { rewrite R3, <- app_assoc. f_equal. cbn [seq map app]. f_equal. rewrite <- seq_shift, map_map. apply map_ext. intros i. f_equal. now rewrite <- iterate_add. }
    split; [exact R4|]. exists d2, u2. split; [|auto]. rewrite R5, app_assoc, Hcat. cbn [Nat.mul]. rewrite stream_app, <- !app_assoc. reflexivity.
Qed.
End Rounds.

Lemma concat_streams k rng : forall n i0, concat (map (fun i => stream k (iterate xorshift32 (i * k) rng)) (seq i0 n)) = stream (n * k) (iterate xorshift32 (i0 * k) rng).
Proof.
  induction n as [|n IH]; intros i0; cbn [seq map concat Nat.mul]; [reflexivity|]. rewrite IH, stream_app. f_equal. f_equal. rewrite <- iterate_add. f_equal. lia.
Qed.
Lemma finished E p D done cur data : concat done ++ cur = data -> Forall (complete p D) done -> open_end p D cur -> finished_chunks E p D data (map (e_H E) done).
Proof.
  intros Hc Hd Ho. exists done, (chunks p D cur). split; [reflexivity|]. split; [rewrite <- Hc; now apply completes_app|].
  destruct cur as [|b r]; [left; apply chunks_nil|right]. exists (b :: r). split; [now apply chunks_last|exact Ho].
Qed.

Lemma bench_chunks E p D sz start clocks : disc_of p D -> (sz mod 4 = 0)%nat -> clock_ok start ->
  Forall (fun t => clock_ok t /\ (tv_sec t - tv_sec start < 18446744073709551)%Z) clocks -> Exists (fun t => time_up start t = true) clocks ->
  exists r, bench_chunker_with E sz p true (start :: clocks) = Ok r /\
    0 < cb_count r /\ length (cb_bufs r) = N.to_nat (cb_count r) /\ Forall (fun b => length b = sz) (cb_bufs r) /\
    concat (cb_bufs r) = stream (N.to_nat (cb_count r) * (sz / 4)) (iterate xorshift32 (sz / 4) SEED) /\
    finished_chunks E p D (concat (cb_bufs r)) (cb_ids r) /\ 9000 <= cb_ms r.
Proof.
  intros Hd Hsz Hst Hall Hex. unfold bench_chunker_with. cbn [negb]. unfold xorshift32_fill. rewrite Hsz. cbn [Nat.eqb]. rewrite fill_stream.
  destruct (chunker_init_spec p D Hd) as (c & -> & Hc).
  destruct (rounds_ok E p D Hd sz start Hsz Hst clocks (iterate xorshift32 (sz / 4) SEED) c 0 [] [] []) as (r & Er & n & R1 & R2 & R3 & R4 & done & cur & R5 & R6 & R7 & R8); auto.
  { split; [exact Hc|]. split; [apply open_nil|constructor]. }
  exists r. split; [exact Er|]. rewrite N.add_0_l in R1. rewrite R1, Nat2N.id. cbn [app concat] in R3, R5. rewrite R3.
  split; [lia|]. split; [now rewrite map_length, seq_length|]. split.
  { apply Forall_forall. intros b Hb. apply in_map_iff in Hb as (i & <- & _). rewrite stream_length. pose proof (Nat.div_mod sz 4 ltac:(lia)). lia. }
  pose proof (concat_streams (sz / 4) (iterate xorshift32 (sz / 4) SEED) n 0) as C. cbn [Nat.mul iterate] in C. rewrite C. split; [reflexivity|]. split; [|exact R4].
  rewrite R8. now apply finished with (cur := cur).
Qed.

(** ** The hash benchmark *)
Lemma hash_some_ok E sz : (sz mod 4 = 0)%nat -> forall n rng w,
  match fst (hash_some E n sz rng w) with Ok r => r = iterate xorshift32 (n * (sz / 4)) rng | Halt => True | _ => False end.
Proof.
  intros Hsz. induction n as [|n IH]; intros rng w; cbn [hash_some]; [reflexivity|]. unfold bind, lift, xorshift32_fill. rewrite Hsz. cbn [Nat.eqb]. rewrite fill_stream.
  assert (S : match fst (sha_once E (stream (sz / 4) rng) w) with Ok _ => True | Halt => True | _ => False end).
  { unfold sha_once. destruct (w_kcapi w); [|exact Logic.I]. destruct (kc_send _ _) as [[[r|]|] kv]; try exact Logic.I. destruct (kc_recv kv) as [[[|]|] kv2]; exact Logic.I. }
  destruct (sha_once E (stream (sz / 4) rng) w) as [[h| | |] w1]; cbn [fst] in S |- *; try tauto.
  specialize (IH (iterate xorshift32 (sz / 4) rng) w1). destruct (fst (hash_some E n sz (iterate xorshift32 (sz / 4) rng) w1)); auto. cbn [Nat.mul]. now rewrite IH, iterate_add.
Qed.
Definition good_clock (start : timespec) (t : timespec) : Prop := clock_ok t /\ (tv_sec t - tv_sec start < 18446744073709551)%Z.
Lemma hash_until_ok E sz start : (sz mod 4 = 0)%nat -> clock_ok start -> forall clocks rng count w, Forall (good_clock start) clocks ->
  match fst (hash_until E sz start clocks rng count w) with
  | Ok (c, ms, _, rest) => (exists k, c = count + 100 * k /\ 0 < k) /\ 9000 <= ms /\ exists pre, clocks = pre ++ rest
  | Halt => True | _ => False end.
Proof.
  intros Hsz Hst. induction clocks as [|now clocks IH]; intros rng count w Hall; cbn [hash_until]; [exact Logic.I|]. inversion Hall as [|? ? (Hn1 & Hn2) Hall']; subst.
  unfold bind. pose proof (hash_some_ok E sz Hsz 100 rng w) as S. destruct (hash_some E 100 sz rng w) as [[r| | |] w1]; cbn [fst] in S |- *; try tauto.
  destruct (time_up start now) eqn:Eu; cbn [ret fst].
  - split; [exists 1; lia|]. split; [now apply delta_ten|]. now exists [now].
  - specialize (IH r (count + 100) w1 Hall'). destruct (fst (hash_until E sz start clocks r (count + 100) w1)) as [[[[c ms] g] rest]| | |]; auto.
    destruct IH as ((k & -> & Hk) & Hm & pre & ->). split; [exists (k + 1); lia|]. split; [exact Hm|]. now exists (now :: pre).
Qed.
Lemma hash_rounds_ok E : forall rounds sz clocks rng acc w, (forall k, (k < rounds)%nat -> (Nat.div sz (4 ^ k) mod 4 = 0)%nat) -> all_close clocks ->
  match fst (hash_rounds E rounds sz clocks rng acc w) with
  | Ok l => exists more, l = acc ++ more /\ length more = rounds /\ Forall (fun r => (exists k, fst r = 100 * k /\ 0 < k) /\ 9000 <= snd r) more
  | Halt => True | _ => False end.
Proof.
  induction rounds as [|rounds IH]; intros sz clocks rng acc w Hsz (Hok & Hcl); cbn [hash_rounds].
  - cbn [ret fst]. exists []. rewrite app_nil_r. auto.
  - destruct clocks as [|start clocks]; [exact Logic.I|]. inversion Hok as [|? ? Hst Hok']; subst. unfold bind.
    assert (H0 : (sz mod 4 = 0)%nat) by (specialize (Hsz 0%nat ltac:(lia)); now rewrite Nat.pow_0_r, Nat.div_1_r in Hsz).
    pose proof (hash_until_ok E sz start H0 Hst clocks rng 0 w) as U. destruct (hash_until E sz start clocks rng 0 w) as [[[[[c ms] g] rest]| | |] w1]; cbn [fst] in U |- *; try (apply U; apply Forall_forall; intros t Ht; split; [now apply (proj1 (Forall_forall _ _) Hok')|apply Hcl; [now left|now right]]).
    destruct U as ((k & Hc & Hk) & Hm & pre & Hp). { apply Forall_forall. intros t Ht. split; [now apply (proj1 (Forall_forall _ _) Hok')|apply Hcl; [now left|now right]]. }
    specialize (IH (Nat.div sz 4) rest g (acc ++ [(c, ms)]) w1). destruct (fst (hash_rounds E rounds (Nat.div sz 4) rest g (acc ++ [(c, ms)]) w1)) as [l| | |]; auto; try (apply IH).
    + destruct IH as (more & -> & Hl & Hf).
      * intros j Hj. specialize (Hsz (S j) ltac:(lia)). rewrite Nat.pow_succ_r', <- Nat.div_div in Hsz by (try lia; apply Nat.pow_nonzero; lia). exact Hsz.
      * split; [rewrite Hp in Hok'; apply Forall_app in Hok'; apply Hok'|]. intros s t Hs Ht. apply Hcl; right; rewrite Hp; apply in_app_iff; now right.
      * exists ((c, ms) :: more). rewrite <- app_assoc. split; [reflexivity|]. split; [cbn; now rewrite Hl|]. constructor; [|exact Hf]. cbn [fst snd]. split; [|exact Hm]. exists k. split; [rewrite Hc; lia|exact Hk].
    + intros j Hj. specialize (Hsz (S j) ltac:(lia)). rewrite Nat.pow_succ_r', <- Nat.div_div in Hsz by (try lia; apply Nat.pow_nonzero; lia). exact Hsz.
    + split; [rewrite Hp in Hok'; apply Forall_app in Hok'; apply Hok'|]. intros s t Hs Ht. apply Hcl; right; rewrite Hp; apply in_app_iff; now right.
    + intros j Hj. specialize (Hsz (S j) ltac:(lia)). rewrite Nat.pow_succ_r', <- Nat.div_div in Hsz by (try lia; apply Nat.pow_nonzero; lia). exact Hsz.
    + split; [rewrite Hp in Hok'; apply Forall_app in Hok'; apply Hok'|]. intros s t Hs Ht. apply Hcl; right; rewrite Hp; apply in_app_iff; now right.
Qed.

Lemma block_sizes k : (k < 3)%nat -> (Nat.div (N.to_nat (AVG_DEFAULT * 4)) (4 ^ k) mod 4 = 0)%nat.
Proof.
  intros Hk. change (AVG_DEFAULT * 4) with (4 ^ 9). rewrite N2Nat.inj_pow. change (N.to_nat 4) with 4%nat. change (N.to_nat 9) with 9%nat.
  assert (P : (4 ^ k <> 0)%nat) by (apply Nat.pow_nonzero; lia).
  replace 9%nat with (8 - k + 1 + k)%nat by lia. rewrite !Nat.pow_add_r, Nat.pow_1_r, Nat.div_mul by exact P. apply Nat.mod_mul. lia.
Qed.
Lemma bench_hash_ok E driver clocks w : all_close clocks ->
  match fst (bench_hash E driver clocks w) with
  | Ok None => driver = true /\ e_kcapi_ok E = false \/ exists a, w_alloc w = false :: a
  | Ok (Some l) => length l = 3%nat /\ Forall (fun r => (exists k, fst r = 100 * k /\ 0 < k) /\ 9000 <= snd r) l
  | Halt => True
  | _ => False
  end.
Proof.
  intros Hc. unfold bench_hash, bind.
  assert (K : exists b w1, (if driver then sha_kcapi_init E else ret true) w = (Ok b, w1) /\ w_alloc w1 = w_alloc w /\ (b = false -> driver = true /\ e_kcapi_ok E = false)).
  { destruct driver; [|exists true, w; repeat split; discriminate]. unfold sha_kcapi_init. destruct (e_kcapi_ok E) eqn:Ek; eexists _, _; (split; [reflexivity|]); split; try reflexivity; [discriminate|auto]. }
  destruct K as (b & w1 & -> & Ha & Hb). destruct b; cbn [negb]; [|cbn [ret fst]; left; auto].
  assert (A : exists a w2, alloc w1 = (Ok a, w2) /\ (a = false -> exists r, w_alloc w = false :: r)).
  { unfold alloc. rewrite Ha. destruct (w_alloc w) as [|[|] r]; eexists _, _; (split; [reflexivity|]); try discriminate. intros _. now exists r. }
  destruct A as (a & w2 & -> & Hf). destruct a; cbn [negb]; [|cbn [ret fst]; right; auto].
  pose proof (hash_rounds_ok E 3 (N.to_nat (AVG_DEFAULT * 4)) clocks SEED [] w2 block_sizes Hc) as R.
  destruct (hash_rounds E 3 (N.to_nat (AVG_DEFAULT * 4)) clocks SEED [] w2) as [[l| | |] w3]; cbn [fst ret] in R |- *; auto.
  destruct R as (more & -> & R). exact R.
Qed.
Lemma default_disc_of : disc_of bench_params default_disc.
Proof. split; [exact default_disc_ok|]. vm_compute. discriminate. Qed.
Lemma bench_mod4 : (N.to_nat 1048576 mod 4 = 0)%nat.
Proof. change 1048576 with (4 * 262144). rewrite N2Nat.inj_mul, Nat.mul_comm. apply Nat.mod_mul. discriminate. Qed.
Lemma bench_actual E start clocks : clock_ok start ->
  Forall (fun t => clock_ok t /\ (tv_sec t - tv_sec start < 18446744073709551)%Z) clocks -> Exists (fun t => time_up start t = true) clocks ->
  exists r, bench_chunker E true (start :: clocks) = Ok r /\ 0 < cb_count r /\ finished_chunks E bench_params default_disc (concat (cb_bufs r)) (cb_ids r) /\ 9000 <= cb_ms r.
Proof.
  intros H1 H2 H3. unfold bench_chunker. pose proof bench_mod4 as M. set (sz := N.to_nat 1048576) in *. clearbody sz.
  destruct (bench_chunks E bench_params default_disc sz start clocks default_disc_of M H1 H2 H3) as (r & R1 & R2 & _ & _ & _ & R3 & R4). exists r. auto.
Qed.
Lemma seed_run n : iterate xorshift32 n SEED <> 0.
Proof. apply xorshift_run; [reflexivity|discriminate]. Qed.

(** *** The command line *)
Lemma bench_which prog a rest : (bench_main (prog :: a :: rest) = BHash <-> a = bs "hash") /\ (bench_main (prog :: a :: rest) = BChunker <-> a = bs "chunker") /\
  (a <> bs "hash" -> a <> bs "chunker" -> bench_main (prog :: a :: rest) = BUsage 0).
Proof.
  cbn [bench_main]. destruct (beq a (bs "-h")) eqn:E1; [apply beq_eq in E1; subst a; split; [|split]; [split; discriminate|split; discriminate|reflexivity]|].
  destruct (beq a (bs "--help")) eqn:E2; [apply beq_eq in E2; subst a; split; [|split]; [split; discriminate|split; discriminate|reflexivity]|]. cbn [orb].
  destruct (beq a (bs "hash")) eqn:E3; [apply beq_eq in E3; subst a; split; [|split]; [split; reflexivity|split; discriminate|congruence]|].
  destruct (beq a (bs "chunker")) eqn:E4; [apply beq_eq in E4; subst a; split; [|split]; [split; discriminate|split; reflexivity|congruence]|].
  apply beq_neq in E3, E4. split; [|split]; [split; [discriminate|contradiction]|split; [discriminate|contradiction]|reflexivity].
Qed.
