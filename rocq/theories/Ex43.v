(** Readings of a clock for the benchmarks (C109). *)
From Verif Require Import Base Lib Utils Log Sha Chunker SpecChunker Bench SpecBench SpecClosing Closing PfBench Rate SpecRate PfRate2 Toy Ex1 Ex2 Ex4 Ex6 Ex12.
Local Open Scope N_scope.

Lemma readings43 : readings (t0 :: ticks) /\ N.of_nat (length ticks) < 2 ^ 40.
Proof.
  split; [|reflexivity]. split; [apply three_clocks|]. unfold t0, ticks. cbn [In]. intros s t Hs Ht.
  repeat destruct Hs as [<-|Hs]; try tauto; repeat destruct Ht as [<-|Ht]; try tauto; cbn; lia.
Qed.
Lemma chunked43 : exists r, bench_chunker toy0 true (t0 :: ticks) = Ok r.
Proof. destruct (bench_actual toy0 t0 ticks t0_ok ticks_ok ticks_up) as (r & H & _). now exists r. Qed.

Definition c43 : list timespec := [mkTs 100 0; mkTs 105 0; mkTs 110 500000000; mkTs 110 600000000; mkTs 120 0; mkTs 120 0; mkTs 130 1].
Lemma c43_ok : readings c43 /\ N.of_nat (length c43) < 2 ^ 34.
Proof.
  split; [|reflexivity]. unfold c43. split; [repeat constructor; cbn; lia|]. cbn [In]. intros s t Hs Ht.
  repeat destruct Hs as [<-|Hs]; try tauto; repeat destruct Ht as [<-|Ht]; try tauto; cbn; lia.
Qed.
Lemma some43 E sz w : w_kcapi w = false -> (sz mod 4 = 0)%nat -> forall n rng, exists r, hash_some E n sz rng w = (Ok r, w).
Proof.
  intros K M. induction n as [|n IH]; intros rng; cbn [hash_some]; [now exists rng|]. unfold bind, lift, xorshift32_fill. rewrite M. cbn [Nat.eqb].
  destruct (fill_words (sz / 4) rng) as [b r']. unfold sha_once. rewrite K. cbn [ret]. apply IH.
Qed.
Lemma until43 E sz w start : w_kcapi w = false -> (sz mod 4 = 0)%nat -> forall clocks rng count, Exists (fun t => time_up start t = true) clocks ->
  exists c ms g k, hash_until E sz start clocks rng count w = (Ok (c, ms, g, skipn (S k) clocks), w) /\ exists t, nth_error clocks k = Some t /\ time_up start t = true /\ c = count + 100 * N.of_nat (S k) /\
    ms = time_delta_ms start t /\ forall j t', (j < k)%nat -> nth_error clocks j = Some t' -> time_up start t' = false.
Proof.
  intros K M. induction clocks as [|now clocks IH]; intros rng count Hx; [inversion Hx|]. cbn [hash_until]. unfold bind. destruct (some43 E sz w K M 100 rng) as (r & ->).
  destruct (time_up start now) eqn:U.
  - exists (count + 100), (time_delta_ms start now), r, 0%nat. split; [reflexivity|]. exists now. split; [reflexivity|]. split; [exact U|]. split; [lia|]. split; [reflexivity|]. intros; lia.
  - assert (Hx' : Exists (fun t => time_up start t = true) clocks) by (inversion Hx; [congruence|assumption]). destruct (IH r (count + 100) Hx') as (c & ms & g & k & E1 & t & A1 & A2 & A3 & A4 & A5).
    exists c, ms, g, (S k). split; [exact E1|]. exists t. split; [exact A1|]. split; [exact A2|]. split; [lia|]. split; [exact A4|]. intros [|j] t' Hj Hn; cbn in Hn; [congruence|]. apply (A5 j); [lia|exact Hn].
Qed.
Lemma step43 E k sz rng acc w start clocks n t : w_kcapi w = false -> (sz mod 4 = 0)%nat -> nth_error clocks n = Some t -> time_up start t = true -> (forall j t', (j < n)%nat -> nth_error clocks j = Some t' -> time_up start t' = false) ->
  exists g, hash_rounds E (S k) sz (start :: clocks) rng acc w = hash_rounds E k (Nat.div sz 4) (skipn (S n) clocks) g (acc ++ [(100 * N.of_nat (S n), time_delta_ms start t)]) w.
Proof.
  intros K M Hn Hu Hb. cbn [hash_rounds]. unfold bind. assert (Hx : Exists (fun t => time_up start t = true) clocks) by (apply Exists_exists; exists t; split; [exact (nth_error_In _ _ Hn)|exact Hu]).
  destruct (until43 E sz w start K M clocks rng 0 Hx) as (c & ms & g & m & -> & t' & A1 & A2 & A3 & A4 & A5). exists g.
  assert (m = n). { destruct (Nat.lt_trichotomy m n) as [L|[L|L]]; [|exact L|]; [rewrite (Hb m t' L A1) in A2; discriminate|rewrite (A5 n t L Hn) in Hu; discriminate]. }
  subst m. assert (t' = t) by congruence. subst t'. now rewrite A3, A4, N.add_0_l.
Qed.
Definition l43 : list (N * N) := [(200, 10500); (100, 9400); (100, 10000)].
Lemma hashed43 : exists w', bench_hash toy0 false c43 w_run = (Ok (Some l43), w').
Proof.
  pose proof block_sizes as B. unfold bench_hash. generalize dependent (N.to_nat (AVG_DEFAULT * 4)). intros sz B. unfold bind at 1. cbn [ret]. cbn [negb]. unfold bind at 1.
  assert (A : exists w2, alloc w_run = (Ok true, w2) /\ w_kcapi w2 = false) by (eexists; split; reflexivity). destruct A as (w2 & -> & K). cbn [negb]. unfold bind, c43.
  pose proof (B 0%nat ltac:(lia)) as B0. rewrite Nat.pow_0_r, Nat.div_1_r in B0. pose proof (B 1%nat ltac:(lia)) as B1. rewrite Nat.pow_1_r in B1. pose proof (B 2%nat ltac:(lia)) as B2. change (4 ^ 2)%nat with (4 * 4)%nat in B2. rewrite <- Nat.div_div in B2 by discriminate.
  destruct (step43 toy0 2 sz SEED [] w2 (mkTs 100 0) [mkTs 105 0; mkTs 110 500000000; mkTs 110 600000000; mkTs 120 0; mkTs 120 0; mkTs 130 1] 1 (mkTs 110 500000000) K B0 eq_refl eq_refl) as (g & ->).
  { intros [|j] t' Hj Hn; [injection Hn as <-; reflexivity|lia]. }
  cbn [skipn app]. destruct (step43 toy0 1 (Nat.div sz 4) g [(100 * N.of_nat 2, time_delta_ms (mkTs 100 0) (mkTs 110 500000000))] w2 (mkTs 110 600000000) [mkTs 120 0; mkTs 120 0; mkTs 130 1] 0 (mkTs 120 0) K B1 eq_refl eq_refl) as (g2 & ->). { intros j t' Hj; lia. }
  cbn [skipn app]. destruct (step43 toy0 0 (Nat.div (Nat.div sz 4) 4) g2 [(100 * N.of_nat 2, time_delta_ms (mkTs 100 0) (mkTs 110 500000000)); (100 * N.of_nat 1, time_delta_ms (mkTs 110 600000000) (mkTs 120 0))] w2 (mkTs 120 0) [mkTs 130 1] 0 (mkTs 130 1) K B2 eq_refl eq_refl) as (g3 & ->). { intros j t' Hj; lia. }
  eexists. reflexivity.
Qed.
Lemma text43 : hash_lines 262144 l43 =
  bs "hashing 262144 byte blocks for about 10 seconds... 200 iterations in 10500 ms -> 4.76 MiB/s" ++ NL ++
  bs "hashing 65536 byte blocks for about 10 seconds... 100 iterations in 9400 ms -> 0.66 MiB/s" ++ NL ++
  bs "hashing 16384 byte blocks for about 10 seconds... 100 iterations in 10000 ms -> 0.16 MiB/s" ++ NL.
Proof. vm_compute. reflexivity. Qed.
