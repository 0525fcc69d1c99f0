(** Updates between images, for C90 and C91. *)
From Verif Require Import Base Lib SpecBasic SpecCrypto SpecEnv Utils Discr Chunker Encrypt Caibx StoreHttp Chain MainProg SpecChunker SpecCaibx SpecStore SpecHttp SpecMain SpecRun SpecAvail SpecProgress SpecDelta SpecSupply SpecUpdate SpecGen
  PfBasic PfKeyspec PfCaibx PfCaibx2 PfIndex PfChunker PfChunkProps PfAvail PfDelta PfSupply PfStart PfUpdate PfGen Toy Ex1 Ex2 Ex4 Ex5 Ex6 Ex8 Ex9 Ex23.
Local Open Scope N_scope.

(** A frame is the magic number and the data. *)
Definition magic : bytes := [40; 181; 47; 253].
Definition strip (h : list (bytes * nat)) (inp : bytes) (room : nat) : option (nat * bytes) :=
  let s := list_sum (map (fun x => length (fst x)) h) in
  let head := Nat.min (4 - s) (length inp) in
  let k := Nat.min (length inp - head) room in
  Some ((head + k)%nat, firstn k (skipn head inp)).
(** A server that has the chunks [served]; two of three transfers fail. *)
Definition srv26 (served : list bytes) (url : bytes) (n : nat) : perf :=
  if Nat.eqb (n mod 3) 2 then
    match parse_hex (firstn 64 (skipn 16 url)) with
    | Some id => match find (fun P => beq (toyH P) id) served with Some P => mkPerf (Some 200) [magic; P] CURLE_OK | None => mkPerf (Some 404) [] CURLE_OK end
    | None => mkPerf (Some 404) [] CURLE_OK
    end
  else mkPerf None [] CURLE_COULDNT_CONNECT.
Definition shop (served : list bytes) : env :=
  mkEnv toyH isort (fun l id => lsearch l id 0) strip (srv26 served) open_char open_char (fun _ => KReg) (fun _ => None) true true false.
Lemma skip_skip {A} (l : list A) : forall a b, skipn a (skipn b l) = skipn (a + b) l.
Proof. intros a b. revert l. induction b as [|b IH]; intros l; [now rewrite Nat.add_0_r|]. rewrite Nat.add_succ_r. destruct l; cbn [skipn]; [apply skipn_nil|apply IH]. Qed.
Lemma some_pair (a c : nat) (b d : bytes) : Some (a, b) = Some (c, d) -> a = c /\ b = d.
Proof. intros X. now inversion X. Qed.
Lemma shop_ok served : env_ok (shop served).
Proof.
  destruct (toy_ok no_server open_char open_char (fun _ => KReg) (fun _ => None)) as (A & B & C & _). split; [exact A|]. split; [exact B|]. split; [exact C|].
  intros h inp room c p H. cbn [shop e_zstep] in H. unfold strip in H. apply some_pair in H as (<- & <-). rewrite firstn_length, skipn_length. lia.
Qed.
Lemma fed26 served P h c p : fed (shop served) (magic ++ P) P h c p -> c = list_sum (map (fun x => length (fst x)) h) /\ p = (c - 4)%nat /\ (c <= 4 + length P)%nat.
Proof.
  induction 1 as [|h c p inp rest room dc dp H (H1 & H2 & H3) Hi Hs Hr HZ]; [cbn; lia|].
  cbn [shop e_zstep] in HZ. unfold strip in HZ. apply some_pair in HZ as (<- & <-). rewrite <- H1.
  apply (f_equal (@length N)) in Hs. rewrite skipn_length, !app_length in Hs. change (length magic) with 4%nat in Hs.
  change (list_sum (map (fun x => length (fst x)) ((inp, room) :: h))) with (length inp + list_sum (map (fun x : bytes * nat => length (fst x)) h))%nat. rewrite <- H1, firstn_length, skipn_length. lia.
Qed.
Lemma decodes26 served P : decodes (shop served) (magic ++ P) P.
Proof.
  split; [exists P; reflexivity|]. intros h c p inp rest room H Hi Hs Hr. apply fed26 in H as (H1 & H2 & H3).
  pose proof (f_equal (@length N) Hs) as L. rewrite skipn_length, !app_length in L. change (length magic) with 4%nat in L.
  cbn [shop e_zstep]. unfold strip. rewrite <- H1. eexists _, _. split; [reflexivity|].
  assert (L1 : length inp <> 0%nat) by (intros X; apply Hi; now apply length_zero_iff_nil).
  assert (M1 : Nat.min (length inp - Nat.min (4 - c) (length inp)) room = (length inp - Nat.min (4 - c) (length inp))%nat) by lia. rewrite M1. split; [lia|].
  set (hd := Nat.min (4 - c) (length inp)). rewrite (firstn_all2 (skipn hd inp)) by (rewrite skipn_length; lia).
  destruct (Nat.leb_spec 4 (hd + c)) as [Y|Y].
  - exists rest. assert (S1 : skipn p P = skipn hd (inp ++ rest)).
    { rewrite <- Hs, skip_skip, skipn_app. rewrite (skipn_all2 magic) by exact Y. change (length magic) with 4%nat. cbn [app]. f_equal. lia. }
    rewrite S1, skipn_app. replace (hd - length inp)%nat with 0%nat by lia. split; [reflexivity|]. intros ->. split; [lia|reflexivity].
  - exists P. replace (skipn hd inp) with (@nil N) by (symmetry; apply skipn_all2; lia). replace p with 0%nat by lia. split; [reflexivity|]. intros ->. cbn [length] in L. exfalso. lia.
Qed.

Section Server.
Variable served : list bytes.
Hypothesis Hnd : NoDup (map toyH served).
Lemma find26 P : In P served -> find (fun Q => beq (toyH Q) (toyH P)) served = Some P.
Proof.
  induction served as [|Q l IH]; intros [].
  - subst Q. cbn [find]. now rewrite (proj2 (beq_eq _ _) eq_refl).
  - cbn [map] in Hnd. inversion Hnd as [|? ? N1 N2]; subst. cbn [find]. destruct (beq (toyH Q) (toyH P)) eqn:B; [|auto]. exfalso. apply N1. apply beq_eq in B. rewrite B. now apply in_map.
Qed.
Lemma early26 url k : (k mod 3 <> 2)%nat -> fails_early (shop served) url k.
Proof. intros H. unfold fails_early. cbn [shop e_server]. unfold srv26. apply Nat.eqb_neq in H. rewrite H. split; [reflexivity|left; reflexivity]. Qed.
Lemma has26 P : In P served -> P <> [] -> blen P < 2 ^ 37 -> has_chunk (shop served) site None P.
Proof.
  intros Hin Hne HP. exists (magic ++ P). split; [apply decodes26|]. split; [unfold blen in *; rewrite app_length; change (length magic) with 4%nat; change (2 ^ 38) with (2 * 2 ^ 37); lia|].
  intros url Hu m. apply url9 in Hu. destruct (third m) as (q & Q1 & Q2 & Q3). exists q. split; [exact Q1|]. split; [intros i Hi; apply early26, Q2, Hi|].
  unfold serves. cbn [shop e_server]. unfold srv26. apply Nat.eqb_eq in Q3. rewrite Q3, Hu, (find26 P Hin). cbn [p_code p_end p_segs concat on_the_wire]. rewrite app_nil_r. repeat split. intros [Y|[Y|[]]]; [discriminate Y|contradiction].
Qed.
Lemma lacks26 P : ~ In (toyH P) (map toyH served) -> lacks_chunk (shop served) site None (toyH P).
Proof.
  intros Hout url Hu m. apply url9 in Hu. destruct (third m) as (q & Q1 & Q2 & Q3). exists q. split; [exact Q1|]. split; [intros i Hi; apply early26, Q2, Hi|].
  cbn zeta. cbn [shop e_server]. unfold srv26. apply Nat.eqb_eq in Q3. rewrite Q3, Hu.
  destruct (find _ served) as [Q|] eqn:F; [|cbn; auto]. exfalso. apply find_some in F as (F1 & F2). apply beq_eq in F2. apply Hout. rewrite <- F2. now apply in_map.
Qed.
Lemma server26 : (forall P, In P served -> blen P < OFF_LIMIT) -> server_ok (shop served).
Proof.
  intros H u k s. cbn [shop e_server]. unfold srv26. destruct (Nat.eqb _ _); [|intros []]. destruct (parse_hex _); [|intros []].
  destruct (find _ served) as [P|] eqn:F; [|intros []]. apply find_some in F as (F & _). cbn [p_segs]. intros [<-|[<-|[]]]; [reflexivity|now apply H].
Qed.
Lemma denotes26 w base key : store_denotes (shop served) w site base key -> base = site /\ key = None.
Proof.
  intros (url & params & Hu & Hb & Hk).
  assert (N35 : ~ In 35 site). { intros X. assert (Y : existsb (fun c => c =? 35) site = true) by (apply existsb_exists; exists 35; auto). vm_compute in Y. discriminate Y. }
  destruct Hu as [(<- & -> & _)|(Hu & _)]; [|elim N35; rewrite Hu; apply in_or_app; right; now left].
  split.
  - destruct Hb as [Hb|(<- & _)]; [|reflexivity]. apply (f_equal (@rev N)) in Hb. rewrite rev_app_distr in Hb. vm_compute in Hb. discriminate Hb.
  - inversion Hk; reflexivity.
Qed.
End Server.

Lemma count_le (l : list bytes) : Forall (fun c => c <> []) l -> N.of_nat (length l) <= blen (concat l).
Proof. induction 1 as [|x l Hx H IH]; [cbn; lia|]. cbn [length concat]. unfold blen in *. rewrite app_length. destruct x; [congruence|]. cbn [length]. lia. Qed.

(** *** csn i t s http://h/x: "i" is the index of [new], "s" is [old], "t" is [before]. *)
Definition argv26 : list bytes := [bs "csn"; bs "i"; bs "t"; bs "s"; site].
Definition w26 (served : list bytes) (p : params) (D : N) (old new before : bytes) (n : nat) : world :=
  toy_world [(105%nat, casync_index (shop served) 0 p D new); (115%nat, old); (116%nat, before)] n.
Section World.
Variables (served : list bytes) (p : params) (D : N) (old new before : bytes).
Hypotheses (Hnd : NoDup (map toyH served)) (Hs : forall P, In P served -> P <> [] /\ blen P < 2 ^ 37)
  (Hp : good_params p) (HD : disc_of p D) (Hmax : p_max p <= BUF_SIZE)
  (Ho : bytes_ok old) (Hlo : blen old < 2 ^ 60) (Hbig : 5 * p_avg p <= 6 * blen old) (Hn : new <> []) (Hln : blen new < 2 ^ 57) (Hb : bytes_ok before) (Hlb : blen before < OFF_LIMIT)
  (Hall : forall c, In c (chunks p D new) -> In c served \/ In c (chunks p D old) /\ ~ In (toyH c) (map toyH served)).
Notation W := (w26 served p D old new before).
Notation E := (shop served).
Lemma pieces26 : N.of_nat (length (chunks p D new)) <= blen new.
Proof.
  pose proof (count_le _ (chunks_nonempty p D new)) as H. now rewrite chunks_concat in H.
Qed.
Lemma files26 n : files_ok (W n).
Proof.
  intros i. unfold w26, toy_world, files_of. cbn [w_files find fst].
  destruct (Nat.eqb_spec 105 i).
  { cbn [snd]. pose proof (toc_ids E (proj1 (shop_ok served)) (chunks p D new) 0) as G. split; [apply index_file_ok, G|]. unfold blen, casync_index. rewrite index_file_length, toc_length by exact G. pose proof pieces26. change (2 ^ 57) with 144115188075855872 in Hln. unfold OFF_LIMIT. lia. }
  destruct (Nat.eqb_spec 115 i); [cbn [snd]; split; [exact Ho|]; unfold OFF_LIMIT; change (2 ^ 60) with 1152921504606846976 in Hlo; lia|].
  destruct (Nat.eqb_spec 116 i); cbn [snd]; [split; [exact Hb|exact Hlb]|split; [constructor|vm_compute; reflexivity]].
Qed.
Lemma valid26 n : valid_index (w_files (W n) 105%nat) p (N.of_nat (length (chunks p D new))).
Proof.
  change (w_files (W n) 105%nat) with (casync_index E 0 p D new). unfold casync_index. rewrite <- (toc_length E (chunks p D new) 0).
  apply index_file_valid; [exists false, false, false; reflexivity|exact Hp|apply toc_ids; apply (proj1 (shop_ok served))|]. rewrite toc_length. pose proof pieces26. change (2 ^ 57) with 144115188075855872 in Hln. change (2 ^ 58) with 288230376151711744. lia.
Qed.
Lemma sane26 n : sane E argv26 (W n).
Proof.
  constructor.
  - apply shop_ok.
  - apply server26. intros P HP. destruct (Hs P HP) as (_ & X). unfold OFF_LIMIT. change (2 ^ 37) with 137438953472 in X. lia.
  - intros v s X. discriminate X.
  - apply files26.
  - change (cmd_stores argv26) with [bs "s"; site]. apply Forall_forall. intros a [<-|[<-|[]]]; apply no_nul_b; vm_compute; reflexivity.
  - intros X. vm_compute in X. discriminate X.
  - intros ino X Y. vm_compute in X, Y. congruence.
  - intros ino arg path X [<-|[<-|[]]] (ip & HA) Y; vm_compute in HA; [|discriminate HA]. injection HA as <- <-. vm_compute in X, Y. congruence.
  - intros ino q k arg path X HV _ _. assert (ino = 105%nat) as -> by (vm_compute in X; congruence). destruct (valid_same _ _ _ _ _ (valid26 n) HV) as (-> & _). exists D. exact HD.
Qed.
Lemma usable26 n : Forall (usable E (W n) (cmd_target argv26) p) (cmd_stores argv26).
Proof.
  constructor; [|constructor; [|constructor]].
  - apply us_scan with (path := bs "s") (ino := 115%nat); [vm_compute; reflexivity|reflexivity|discriminate|exact Hbig|exact Hlo].
  - apply us_remote. right. split; [vm_compute; reflexivity|]. intros X. assert (Y : existsb (fun c => c =? 35) site = true) by (apply existsb_exists; exists 35; auto). vm_compute in Y. discriminate Y.
Qed.
Definition need26 : nat := (start_cost E argv26 (W 0) + enough (length (chunks p D new)) 2)%nat.
Lemma update26 n : (need26 <= n)%nat -> update_run E argv26 (W n) 0 p D old new 116 1.
Proof.
  intros Hneed. constructor; try reflexivity; try assumption.
  - apply sane26.
  - cbn [length argv26]. lia.
  - exists false, false, false. reflexivity.
  - exists 105%nat. split; [reflexivity|]. split; [reflexivity|discriminate].
  - change (2 ^ 57) with 144115188075855872 in Hln. unfold OFF_LIMIT. lia.
  - split; [|exact Logic.I]. change (2 ^ 57) with 144115188075855872 in Hln. unfold OFF_LIMIT. lia.
  - apply usable26.
  - exists 0%nat, (bs "s"), (bs "s"), 115%nat. split; [lia|]. split; [reflexivity|]. split; [vm_compute; reflexivity|]. split; reflexivity.
  - exists site. split; [reflexivity|]. split; [vm_compute; reflexivity|]. intros base key c Hd Hc. destruct (denotes26 _ _ _ _ Hd) as (-> & ->).
    destruct (Hall c Hc) as [X|(X & Y)]; [left|right; split; [exact X|now apply lacks26]]. destruct (Hs c X). now apply has26.
  - apply Forall_forall. intros x Hx. apply repeat_spec in Hx. now subst.
  - change (w_io (W n)) with (repeat (IoN 1000) n). rewrite transfers_repeat. exact Hneed.
Qed.
End World.

(** *** A small update, with the chunk sizes 50, 60, 80. *)
Definition x1 : bytes := repeat 1 80.
Definition x2 : bytes := repeat 2 80.
Definition x3 : bytes := repeat 3 30.
Definition w90 (n : nat) : world := w26 [x2] p_ex 45 (x1 ++ x3) (x1 ++ x2 ++ x3) [7] n.
Lemma chunks90 : chunks p_ex 45 (x1 ++ x3) = [x1; x3] /\ chunks p_ex 45 (x1 ++ x2 ++ x3) = [x1; x2; x3].
Proof. vm_compute. split; reflexivity. Qed.
Definition need90 : nat := need26 [x2] p_ex 45 (x1 ++ x3) (x1 ++ x2 ++ x3) [7].
Lemma met90 n : (need90 <= n)%nat -> update_run (shop [x2]) argv26 (w90 n) 0 p_ex 45 (x1 ++ x3) (x1 ++ x2 ++ x3) 116 1.
Proof.
  apply update26.
  - constructor; [intros []|constructor].
  - intros P [<-|[]]. split; [discriminate|vm_compute; reflexivity].
  - vm_compute. repeat split; discriminate.
  - exact disc_ex.
  - vm_compute. discriminate.
  - apply small_bytes. vm_compute. reflexivity.
  - vm_compute. reflexivity.
  - vm_compute. discriminate.
  - discriminate.
  - vm_compute. reflexivity.
  - apply small_bytes. reflexivity.
  - vm_compute. reflexivity.
  - destruct chunks90 as (-> & ->). intros c [<-|[<-|[<-|[]]]]; [right|left; now left|right]; (split; [cbn [In]; auto|]); intros [X|[]]; vm_compute in X; discriminate X.
Qed.
Lemma run90 : let r := main (shop [x2]) argv26 (w90 60) in (fst r, w_files (snd r) 116%nat, asked_of 1 (w_trace (snd r))) = (Ok 0, x1 ++ x2 ++ x3, [toyH x2]).
Proof. vm_compute. reflexivity. Qed.

(** *** test_ab_regular; [rest] follows the chunks in the older image, [before] is what the target holds. *)
Definition list_a : list bytes := [make 262144 1; make 32768 2; make 32768 3].
Definition list_b : list bytes := [make 262144 1; make 32768 2; make 32768 4].
Definition w91 (rest before : bytes) (n : nat) : world := w26 [make 32768 4] p_default d_default (concat list_a ++ rest) (concat list_b) before n.
Definition need91 (rest before : bytes) : nat := need26 [make 32768 4] p_default d_default (concat list_a ++ rest) (concat list_b) before.
Lemma made_ab : Forall made list_a /\ Forall made list_b.
Proof.
  assert (M : forall size b, 16384 <= size <= 262144 -> b < 256 -> made (make size b)) by (intros size b H1 H2; exists size, b; auto).
  split; (constructor; [|constructor; [|constructor; [|constructor]]]); apply M; lia.
Qed.
Lemma make_first size b : hd 0 (toyH (make size b)) = b mod 256.
Proof. unfold make. destruct (size =? 262144); reflexivity. Qed.
Lemma make_bytes c : made c -> bytes_ok c.
Proof.
  intros (size & b & Hs & Hb & ->). unfold make, break_pattern. assert (Z : forall n, bytes_ok (repeat 0 n)) by (intros n; apply Forall_forall; intros x Hx; apply repeat_spec in Hx; subst; lia).
  destruct (size =? 262144); (constructor; [exact Hb|]); [apply Z|]. apply Forall_app. split; [apply Z|]. apply Forall_app. split; [apply Z|]. repeat constructor; lia.
Qed.
Lemma sizes_ab : blen (concat list_a) = 327680 /\ blen (concat list_b) = 327680.
Proof.
  assert (BA : forall a b, blen (a ++ b) = blen a + blen b) by (intros a b; unfold blen; rewrite app_length; lia).
  split; unfold list_a, list_b; cbn [concat]; rewrite !BA, !make_length by lia; reflexivity.
Qed.
Lemma met91 rest before n : bytes_ok rest -> bytes_ok before -> blen rest < 2 ^ 59 -> blen before < OFF_LIMIT -> (need91 rest before <= n)%nat ->
  update_run (shop [make 32768 4]) argv26 (w91 rest before n) 0 p_default d_default (concat list_a ++ rest) (concat list_b) 116 1.
Proof.
  intros Hr Hb Lr Lb. destruct made_ab as (MA & MB). destruct sizes_ab as (SA & SB).
  assert (BA : forall a b, blen (a ++ b) = blen a + blen b) by (intros a b; unfold blen; rewrite app_length; lia).
  assert (L32 : forall b, blen (make 32768 b) = 32768) by (intros b; apply make_length; lia).
  change (2 ^ 59) with 576460752303423488 in Lr.
  unfold w91, need91. apply (update26 [make 32768 4] p_default d_default (concat list_a ++ rest) (concat list_b) before).
  - constructor; [intros []|constructor].
  - intros P [<-|[]]. rewrite L32. split; [|reflexivity]. intros X. specialize (L32 4). rewrite X in L32. discriminate L32.
  - vm_compute. repeat split; discriminate.
  - exact disc_default.
  - vm_compute. discriminate.
  - apply Forall_app. split; [|exact Hr]. apply Forall_concat. eapply Forall_impl; [|exact MA]. apply make_bytes.
  - rewrite BA, SA. change (2 ^ 60) with 1152921504606846976. lia.
  - rewrite BA, SA. cbn [p_avg p_default]. lia.
  - intros X. rewrite X in SB. discriminate SB.
  - rewrite SB. reflexivity.
  - exact Hb.
  - exact Lb.
  - rewrite (made_exactly _ MB), (made_chunks _ rest MA). intros c Hc.
    assert (Q : forall size b, b mod 256 <> 4 -> ~ In (toyH (make size b)) (map toyH [make 32768 4])).
    { intros size b Hq [X|[]]. apply (f_equal (hd 0)) in X. rewrite !make_first in X. apply Hq. now rewrite <- X. }
    destruct Hc as [<-|[<-|[<-|[]]]]; [right; split; [apply in_or_app; left; left; reflexivity|apply Q; discriminate]
      |right; split; [apply in_or_app; left; right; left; reflexivity|apply Q; discriminate]|left; left; reflexivity].
Qed.
