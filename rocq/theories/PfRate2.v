(** What csn-bench prints about its rounds (C109). *)
From Verif Require Import Base Lib Utils Log Sha Chunker Bench SpecBench SpecClosing Closing PfBench Rate SpecRate PfRate.
Local Open Scope N_scope.

Lemma up_spec s t : time_up s t = true <-> (10 <= tv_sec t - tv_sec s)%Z. Proof. unfold time_up. apply Z.leb_le. Qed.
Lemma ms_close s t : clock_ok s -> clock_ok t -> (tv_sec t - tv_sec s < 1000000000000000)%Z -> time_up s t = true ->
  (Z.abs (1000000 * Z.of_N (time_delta_ms s t) - elapsed_ns s t) < 1000000)%Z /\ 0 < time_delta_ms s t < 2 ^ 63.
Proof.
  intros Hs Ht Hd Hu. apply up_spec in Hu. assert (B : (9000000000 <= elapsed_ns s t < 1000000000000001000000000)%Z) by (unfold elapsed_ns; destruct Hs as (? & _), Ht as (? & _); lia).
  pose proof (delta_close s t Hs Ht ltac:(lia) ltac:(lia)) as C. split; [exact C|]. change (2 ^ 63) with 9223372036854775808. lia.
Qed.

(** ** Chunks *)
Lemma rounds_clock E sz start : forall clocks rng c count ids bufs r, bench_rounds E sz start clocks rng c count ids bufs = Ok r ->
  exists k t, nth_error clocks k = Some t /\ cb_count r = count + N.of_nat (S k) /\ cb_ms r = time_delta_ms start t /\ time_up start t = true /\
    forall j t', (j < k)%nat -> nth_error clocks j = Some t' -> time_up start t' = false.
Proof.
  induction clocks as [|now clocks IH]; intros rng c count ids bufs r H; cbn [bench_rounds] in H; [discriminate|].
  destruct (xorshift32_fill rng sz) as [[buf rng']| | |]; try discriminate. destruct (bench_inner E (S (length buf)) c buf ids) as [[c' ids']| | |]; try discriminate.
  destruct (time_up start now) eqn:U.
  - injection H as <-. exists 0%nat, now. cbn. repeat split; auto; try lia.
  - apply IH in H as (k & t & A1 & A2 & A3 & A4 & A5). exists (S k), t. repeat split; auto; [lia|]. intros [|j] t' Hj Hn; cbn in Hn; [congruence|]. apply (A5 j); [lia|exact Hn].
Qed.
Lemma nth_bound {A} (l : list A) k t : nth_error l k = Some t -> (S k <= length l)%nat.
Proof. intros H. apply nth_error_Some. congruence. Qed.

Lemma with_clock E sz p start clocks r : bench_chunker_with E sz p true (start :: clocks) = Ok r ->
  exists k t, nth_error clocks k = Some t /\ cb_count r = N.of_nat (S k) /\ cb_ms r = time_delta_ms start t /\ time_up start t = true /\
    forall j t', (j < k)%nat -> nth_error clocks j = Some t' -> time_up start t' = false.
Proof.
  unfold bench_chunker_with. cbn [negb]. destruct (xorshift32_fill SEED sz) as [[buf rng]| | |]; try discriminate. destruct (chunker_init p) as [c| | |]; try discriminate.
  intros H. exact (rounds_clock E sz start clocks rng c 0 [] [] r H).
Qed.
Lemma bench_chunker_eq E a l : bench_chunker E a l = bench_chunker_with E (N.to_nat 1048576) bench_params a l.
Proof. unfold bench_chunker. reflexivity. Qed.
Lemma shown_size : digits 10 1048576 = bs "1048576". Proof. vm_compute. reflexivity. Qed.

Lemma chunker_report E start clocks r : readings (start :: clocks) -> N.of_nat (length clocks) < 2 ^ 40 -> bench_chunker E true (start :: clocks) = Ok r ->
  exists k ms h, round_of start clocks k ms /\ rate_of (N.of_nat (S k) * 1048576) ms h /\
    chunker_lines r = bs "chunking 1048576 bytes for about 10 seconds... " ++ bench_text (N.of_nat (S k)) ms h.
Proof.
  intros (Hok & Hcl) Hlen H. rewrite bench_chunker_eq in H. apply with_clock in H. destruct H as (k & t & A1 & A2 & A3 & A4 & A5). pose proof (nth_bound _ _ _ A1) as Hk. pose proof (nth_error_In _ _ A1) as Hin.
  inversion Hok as [|x y Hs Hok']; subst x y. pose proof (proj1 (Forall_forall _ _) Hok' t Hin) as Ht.
  destruct (ms_close start t Hs Ht (Hcl start t (or_introl eq_refl) (or_intror Hin)) A4) as (C1 & C2).
  change (2 ^ 40) with 1099511627776 in Hlen. destruct (rate_text (N.of_nat (S k)) 1048576 (time_delta_ms start t)) as (h & T & R); [lia|lia|change (2 ^ 63) with 9223372036854775808; lia|exact C2|].
  exists k, (time_delta_ms start t), h. split; [|split; [exact R|]].
  - exists t. split; [exact A1|]. split; [now apply up_spec|]. split; [|exact C1]. intros j t' Hj Hn. specialize (A5 j t' Hj Hn). unfold time_up in A5. apply Z.leb_gt in A5. exact A5.
  - unfold chunker_lines. rewrite A2, A3, T, shown_size. reflexivity.
Qed.

(** ** Hashes *)
Lemma until_clock E sz start : forall clocks rng count w c ms g rest w', hash_until E sz start clocks rng count w = (Ok (c, ms, g, rest), w') ->
  exists k t, nth_error clocks k = Some t /\ c = count + 100 * N.of_nat (S k) /\ ms = time_delta_ms start t /\ time_up start t = true /\ rest = skipn (S k) clocks /\
    forall j t', (j < k)%nat -> nth_error clocks j = Some t' -> time_up start t' = false.
Proof.
  induction clocks as [|now clocks IH]; intros rng count w c ms g rest w' H; cbn [hash_until] in H; [discriminate|].
  unfold bind in H. destruct (hash_some E 100 sz rng w) as [[r| | |] w1]; try discriminate. destruct (time_up start now) eqn:U.
  - injection H as <- <- <- <- <-. exists 0%nat, now. cbn. repeat split; auto; try lia.
  - apply IH in H as (k & t & A1 & A2 & A3 & A4 & A5 & A6). exists (S k), t. repeat split; auto; [lia|]. intros [|j] t' Hj Hn; cbn in Hn; [congruence|]. apply (A6 j); [lia|exact Hn].
Qed.
Lemma readings_skip n start clocks : readings (start :: clocks) -> readings (skipn n clocks).
Proof.
  intros (A & B). assert (I : forall x, In x (skipn n clocks) -> In x (start :: clocks)) by (intros x Hx; right; rewrite <- (firstn_skipn n clocks); apply in_app_iff; now right).
  split; [apply Forall_forall; intros x Hx; apply (proj1 (Forall_forall _ _) A); now apply I|]. intros s t Hs Ht. apply B; now apply I.
Qed.
Lemma rounds_report E : forall n sz bsz clocks rng acc w l w', readings clocks -> N.of_nat (length clocks) < 2 ^ 34 -> 4 ^ N.of_nat n <= bsz <= 1048576 -> hash_rounds E n sz clocks rng acc w = (Ok l, w') ->
  exists more, l = acc ++ more /\ hash_report n bsz clocks (hash_lines bsz more).
Proof.
  induction n as [|n IH]; intros sz bsz clocks rng acc w l w' HR Hlen Hb H; cbn [hash_rounds] in H.
  { injection H as <- <-. exists []. split; [now rewrite app_nil_r|constructor]. }
  destruct clocks as [|start clocks]; [discriminate|]. unfold bind in H. destruct (hash_until E sz start clocks rng 0 w) as [[[[[c ms] g] rest]| | |] w1] eqn:U; try discriminate.
  apply until_clock in U as (k & t & A1 & A2 & A3 & A4 & A5 & A6). rewrite N.add_0_l in A2. pose proof (nth_bound _ _ _ A1) as Hk. pose proof (nth_error_In _ _ A1) as Hin.
  destruct HR as (Hok & Hcl). inversion Hok as [|x y Hs Hok']; subst x y. pose proof (proj1 (Forall_forall _ _) Hok' t Hin) as Ht.
  destruct (ms_close start t Hs Ht (Hcl start t (or_introl eq_refl) (or_intror Hin)) A4) as (C1 & C2). cbn [length] in Hlen. change (2 ^ 34) with 17179869184 in *.
  assert (P : 4 ^ N.of_nat (S n) = 4 * 4 ^ N.of_nat n) by (rewrite Nat2N.inj_succ, N.pow_succ_r'; reflexivity). pose proof (N.pow_nonzero 4 (N.of_nat n) ltac:(lia)) as Z. rewrite P in Hb.
  destruct (rate_text c bsz ms) as (h & T & R); [lia|lia|change (2 ^ 63) with 9223372036854775808; nia|rewrite A3; exact C2|].
  apply (IH _ (bsz / 4)) in H as (more & -> & M).
  - exists ((c, ms) :: more). split; [now rewrite <- app_assoc|]. cbn [hash_lines]. rewrite T. rewrite A2 in *. apply hr_round; [|exact R|rewrite <- A5; exact M].
    exists t. split; [exact A1|]. split; [now apply up_spec|]. split; [|rewrite A3; exact C1]. intros j t' Hj Hn. specialize (A6 j t' Hj Hn). unfold time_up in A6. apply Z.leb_gt in A6. exact A6.
  - rewrite A5. apply (readings_skip _ start). now split.
  - rewrite A5, skipn_length. lia.
  - split; [apply N.div_le_lower_bound; lia|]. apply N.div_le_upper_bound; lia.
Qed.
Lemma hash_reported E driver clocks w l w' : readings clocks -> N.of_nat (length clocks) < 2 ^ 34 -> bench_hash E driver clocks w = (Ok (Some l), w') ->
  hash_report 3 262144 clocks (hash_lines 262144 l).
Proof.
  intros HR Hlen H. unfold bench_hash, bind in H. set (sz := N.to_nat (AVG_DEFAULT * 4)) in H. clearbody sz.
  destruct ((if driver then sha_kcapi_init E else ret true) w) as [[b| | |] w1]; try discriminate. destruct b; cbn [negb] in H; [|discriminate].
  destruct (alloc w1) as [[a| | |] w2]; try discriminate. destruct a; cbn [negb] in H; [|discriminate].
  destruct (hash_rounds E 3 sz clocks SEED [] w2) as [[l'| | |] w3] eqn:R; try discriminate. injection H as <- <-.
  apply (rounds_report E 3 sz 262144) in R as (more & -> & M); [exact M|exact HR|exact Hlen|]. split; vm_compute; discriminate.
Qed.
