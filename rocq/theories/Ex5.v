(** Witnesses for Properties5.v. *)
From Verif Require Import Base Lib SpecBasic SpecCrypto SpecEnv Utils Encrypt StoreHttp SpecStore SpecHttp
  PfUtils PfBasic PfIO PfEncrypt PfKeyspec PfFrame PfIndex PfLocal PfHttp PfHttp2 PfHttp3 PfHttp4 PfHttp5 Toy.
Local Open Scope N_scope.

(** In the toy environment a frame is its own content. *)
Definition web (srv : nat -> perf) : env := toy_env (fun _ => srv) open_char open_char (fun _ => KReg) (fun _ => None).
Lemma toy_fed srv f h c p : fed (web srv) f f h c p -> c = p /\ (c <= length f)%nat.
Proof.
  induction 1 as [|h c p inp rest room dc dp H IH Hi Hs Hr HZ]; [split; [reflexivity|lia]|].
  destruct IH as [-> IH]. cbn in HZ. injection HZ as <- <-.
  apply (f_equal (@length N)) in Hs. rewrite skipn_length, app_length in Hs. rewrite firstn_length. lia.
Qed.
Lemma toy_decodes srv t : decodes (web srv) ([40; 181; 47; 253] ++ t) ([40; 181; 47; 253] ++ t).
Proof.
  split; [eauto|]. set (f := [40; 181; 47; 253] ++ t). clearbody f. intros h c p inp rest room H Hi Hs Hr.
  apply toy_fed in H as [<- H]. pose proof (f_equal (@length N) Hs) as L. rewrite skipn_length, app_length in L.
  exists (length inp), inp. split; [cbn; rewrite Nat.min_l by lia; now rewrite firstn_all|]. split; [lia|].
  exists rest. split; [exact Hs|]. intros ->. auto.
Qed.

Definition frame_ex : bytes := [40; 181; 47; 253] ++ [7; 8; 9].
Definition fid : bytes := toyH frame_ex.
Definition hs_ex : hstore := mkHStore (bs "http://h/x") 100 0 0 None.
Definition segs_ex : list bytes := [[40; 181]; [47]; [253; 7; 8]; [9]].
Definition ok_ex : perf := mkPerf (Some 200) segs_ex CURLE_OK.
(** Two transient failures, then the chunk *)
Definition srv_good (n : nat) : perf := match n with 0%nat | 1%nat => mkPerf None [] CURLE_COULDNT_CONNECT | _ => ok_ex end.
(** A transfer that breaks off after five bytes, then the chunk *)
Definition srv_broken (n : nat) : perf := match n with 0%nat => mkPerf (Some 200) [[40; 181; 47; 253; 7]] CURLE_OPERATION_TIMEDOUT | _ => ok_ex end.
Definition srv_500 (n : nat) : perf := mkPerf (Some 500) [[1; 2; 3]] CURLE_OK.
Definition out_ex : bytes := repeat 0 20.
Definition web_world : world := toy_world [] 0.

Lemma web_server_ok srv : (forall n, p_segs (srv n) = [] \/ p_segs (srv n) = [[40; 181; 47; 253; 7]] \/ p_segs (srv n) = segs_ex \/ p_segs (srv n) = [[1; 2; 3]]) ->
  server_ok (web srv).
Proof.
  intros H u n s Hs. cbn in Hs. destruct (H n) as [X|[X|[X|X]]]; rewrite X in Hs; cbn in Hs;
    repeat (destruct Hs as [<-|Hs]; [vm_compute; reflexivity|]); destruct Hs.
Qed.
Lemma srv_good_ok : server_ok (web srv_good).
Proof. apply web_server_ok. intros [|[|n]]; cbn; auto. Qed.
Lemma srv_broken_ok : server_ok (web srv_broken).
Proof. apply web_server_ok. intros [|n]; cbn; auto. Qed.
Lemma srv_500_ok : server_ok (web srv_500).
Proof. apply web_server_ok. intros n; cbn; auto. Qed.
Lemma web_ok srv : env_ok (web srv). Proof. apply toy_ok. Qed.
Lemma web_zstd srv : zstd_ok (web srv). Proof. apply (web_ok srv). Qed.
Lemma web_strings srv : env_strings (web srv). Proof. intros x y H. discriminate H. Qed.
Lemma hs_ex_ok : http_ok hs_ex. Proof. split; vm_compute; [discriminate|reflexivity]. Qed.
Lemma fid_len : length fid = 32%nat. Proof. reflexivity. Qed.
Lemma fid_ok : bytes_ok fid. Proof. apply (proj1 (web_ok srv_good)). Qed.

Definition answer (o : outcome (option N * bytes * hstore)) : option (option N * bytes) := match o with Ok (r, out, _) => Some (r, out) | _ => None end.
Lemma good_run : answer (fst (store_http_get_chunk (web srv_good) hs_ex fid out_ex web_world)) = Some (Some 7, frame_ex ++ repeat 0 13) /\
  w_trace (snd (store_http_get_chunk (web srv_good) hs_ex fid out_ex web_world)) = rev (timeline (chunk_url hs_ex fid) 3 false).
Proof. vm_compute. split; reflexivity. Qed.
Lemma good_serves : fails_early (web srv_good) (chunk_url hs_ex fid) 0 /\ fails_early (web srv_good) (chunk_url hs_ex fid) 1 /\
  serves (web srv_good) (chunk_url hs_ex fid) 2 frame_ex.
Proof.
  split; [split; [reflexivity|left; reflexivity]|]. split; [split; [reflexivity|left; reflexivity]|].
  split; [reflexivity|]. split; [reflexivity|]. split; [reflexivity|]. cbn. intros H. repeat (destruct H as [H|H]; [discriminate|]). exact H.
Qed.
Lemma life_run : match fst (use_http (web srv_good) (bs "http://h/x/") [(fid, out_ex); (toyH [1], out_ex); (fid, out_ex)] web_world) with Ok (Some rs) => map fst rs | _ => [] end =
  [Some 7; Some 0; Some 7].
Proof. vm_compute. reflexivity. Qed.

Lemma broken_run : exists E hs id out w body content,
  env_ok E /\ server_ok E /\ http_ok hs /\ length id = 32%nat /\ decodes E body content /\ e_H E content = id /\ (length content <= length out)%nat /\
  w_alloc w = [] /\ w_kcapi w = false /\
  transient (p_end (e_server E (chunk_url hs id) (w_nperf w))) /\ serves E (chunk_url hs id) (S (w_nperf w)) body /\
  exists out' hs' w', store_http_get_chunk E hs id out w = (Ok (Some 0, out', hs'), w') /\ w_nperf w' = (w_nperf w + 2)%nat.
Proof.
  exists (web srv_broken), hs_ex, fid, out_ex, web_world, frame_ex, frame_ex.
  split; [apply web_ok|]. split; [apply srv_broken_ok|]. split; [apply hs_ex_ok|]. split; [reflexivity|]. split; [apply toy_decodes|]. split; [reflexivity|].
  split; [cbn; lia|]. split; [reflexivity|]. split; [reflexivity|]. split; [right; right; reflexivity|]. split.
  { split; [reflexivity|]. split; [reflexivity|]. split; [reflexivity|]. cbn. intros H. repeat (destruct H as [H|H]; [discriminate|]). exact H. }
  eexists. eexists. eexists. split; [vm_compute; reflexivity|reflexivity].
Qed.

(** Eleven error answers *)
Lemma dead_run : match fst (ask_http (web srv_500) hs_ex (repeat (fid, out_ex) 13) web_world) with Ok rs => map fst rs | _ => [] end = repeat (Some 0) 10 ++ [None].
Proof. vm_compute. reflexivity. Qed.
Lemma history_500 : exists v hs, history (web srv_500) hs_ex [v] hs.
Proof.
  destruct (store_http_get_chunk (web srv_500) hs_ex fid out_ex web_world) as [[[[r o] hs]| | |] w'] eqn:E; try (vm_compute in E; discriminate E).
  destruct (history_extends (web srv_500) hs_ex [] hs_ex fid out_ex web_world r o hs w' (web_zstd _) srv_500_ok hs_ex_ok (h_new _ _) fid_len eq_refl E) as [v H].
  exists v, hs. exact H.
Qed.
Lemma new_run : match fst (store_http_new (web srv_good) (bs "http://h/x/") web_world) with Ok (Some hs) => hs_base hs = bs "http://h/x" /\ chunk_url hs fid = bs "http://h/x/28b5/28b52ffd07080900000000000000000000000000000000000000000000000007.cacnk" | _ => False end.
Proof. vm_compute. split; reflexivity. Qed.

(** A body that does not fit is collected in the decode buffer, however large it is. *)
Definition flood (k : nat) : list bytes := [40; 181; 47; 253] :: repeat (repeat 0 1000) k.
Definition srv_flood (k : nat) (n : nat) : perf := mkPerf (Some 200) (flood k) CURLE_OK.
Lemma flood_deliver srv w s : w_alloc w = [] -> blen s = 1000 -> forall k r, rq_state r = STREAMING -> rq_out r = [] -> rq_cipher r = None -> rq_dec r <> [] ->
  blen (rq_dec r) <= rq_cap r -> rq_cap r + 1000 * N.of_nat k < 2 ^ 60 ->
  exists r', curl_deliver (web srv) (Some 200) (repeat s k) CURLE_OK r w = (Ok (CURLE_OK, r'), w) /\
    rq_state r' = STREAMING /\ rq_out r' = [] /\ rq_written r' = rq_written r /\ blen (rq_dec r') = blen (rq_dec r) + 1000 * N.of_nat k /\ blen (rq_dec r') <= rq_cap r'.
Proof.
  intros Ha Ls. induction k as [|k IH]; intros r H1 H2 H3 H4 H5 H6; cbn [repeat curl_deliver].
  { exists r. rewrite N.mul_0_r, N.add_0_r. split; [reflexivity|]. auto. }
  assert (SM : 3 * (2 ^ 61) < SIZE_MOD) by reflexivity.
  assert (X : decode_buffer_absorb r s w = decode_buffer_absorb r s w) by reflexivity.
  unfold decode_buffer_absorb in X at 2. unfold SIZE_MOD in X. rewrite (N.mod_small (rq_cap r + blen s)) in X by lia.
  replace (rq_cap r + blen s <? rq_cap r) with false in X by lia. rewrite andb_false_r in X.
  set (grow := _ <? blen s) in X.
  assert (G : blen (rq_dec r) + blen s <= (if grow then rq_cap r + blen s else rq_cap r) /\ (if grow then rq_cap r + blen s else rq_cap r) <= rq_cap r + blen s).
  { subst grow. destruct (N.ltb_spec (rq_cap r - blen (rq_dec r)) (blen s)); lia. }
  set (cap := if grow then _ else rq_cap r) in *.
  assert (EA : (if grow then alloc else ret true) w = (Ok true, w)) by (destruct grow; [unfold alloc; now rewrite Ha|reflexivity]).
  rewrite (bind_eq _ _ _ _ _ EA) in X. cbn [negb] in X. replace (cap <? blen (rq_dec r) + blen s) with false in X by lia. rewrite H3 in X.
  assert (Hcb : store_http_data_cb (web srv) (Some 200) s r w =
      (Ok (blen s, mkReq STREAMING [] (rq_written r) (rq_dec r ++ s) cap ((rq_dec r ++ s, 0%nat) :: rq_zhist r) None), w)).
  { unfold store_http_data_cb. rewrite H1, H3, orb_false_r.
    replace (blen (rq_dec r) =? 0) with false by (destruct (rq_dec r); [congruence|unfold blen; cbn; lia]). cbn [negb].
    rewrite (bind_eq _ _ _ _ _ X). cbn [negb]. unfold handle_data. cbn [rq_state rq_out rq_written rq_dec]. rewrite H1, H2.
    unfold bind. cbn [e_zstep web toy_env]. rewrite Nat.sub_0_l, Nat.min_0_r. cbn [ret firstn length skipn]. 
    unfold rq_set_dec. cbn [rq_state rq_out rq_written rq_dec rq_cap rq_zhist rq_cipher length skipn]. rewrite Nat.add_0_r. unfold overlay_at. cbn. rewrite ?firstn_nil, ?skipn_nil. reflexivity. }
  rewrite (bind_eq _ _ _ _ _ Hcb). rewrite N.eqb_refl.
  destruct (IH (mkReq STREAMING [] (rq_written r) (rq_dec r ++ s) cap ((rq_dec r ++ s, 0%nat) :: rq_zhist r) None)) as (r' & R1 & R2 & R3 & R4 & R5 & R6); cbn [rq_state rq_out rq_written rq_dec rq_cap rq_zhist rq_cipher]; auto.
  { destruct (rq_dec r); [congruence|discriminate]. } { rewrite blen_app. lia. } { lia. }
  exists r'. split; [exact R1|]. split; [exact R2|]. split; [exact R3|]. split; [exact R4|]. split; [|exact R6]. rewrite R5. cbn [rq_dec]. rewrite blen_app. lia.
Qed.

Lemma buffer_grows n : n < 2 ^ 50 -> exists E hs id out w r out' hs' w',
  env_ok E /\ server_ok E /\ http_ok hs /\ length id = 32%nat /\ (forall u k s, In s (p_segs (e_server E u k)) -> blen s <= 16384) /\
  store_http_get_chunk E hs id out w = (Ok (r, out', hs'), w') /\ n <= hs_dec_cap hs'.
Proof.
  intros Hn. set (k := N.to_nat (n / 1000 + 1)).
  assert (Hk : n <= 1000 * N.of_nat k /\ 1000 * N.of_nat k < 2 ^ 51).
  { unfold k. rewrite N2Nat.id. pose proof (N.div_mod n 1000 ltac:(discriminate)). pose proof (N.mod_lt n 1000 ltac:(discriminate)). lia. }
  clearbody k. set (s := repeat 0 1000). assert (Ls : blen s = 1000) by reflexivity.
  assert (HI : forall x, In x (flood k) -> blen x <= 16384).
  { unfold flood. intros x [<-|Hx]; [vm_compute; discriminate|]. apply repeat_spec in Hx. subst x. fold s. rewrite Ls. lia. }
  exists (web (srv_flood k)), hs_ex, fid, [], web_world.
  destruct (flood_deliver (srv_flood k) (after_perform (chunk_url hs_ex fid) web_world) s eq_refl Ls k
     (mkReq STREAMING [] 0 [40; 181; 47; 253] 4 [([40; 181; 47; 253], 0%nat)] None)) as (q & D1 & D2 & D3 & D4 & D5 & D6);
    try reflexivity; try discriminate. { cbn [rq_cap]. lia. }
  assert (HD : curl_deliver (web (srv_flood k)) (Some 200) (flood k) CURLE_OK (fresh_req hs_ex fid []) (after_perform (chunk_url hs_ex fid) web_world) =
    (Ok (CURLE_OK, q), after_perform (chunk_url hs_ex fid) web_world)).
  { unfold flood. fold s. cbn [curl_deliver]. erewrite bind_eq by reflexivity. exact D1. }
  clearbody s.
  assert (HP : retried_curl_easy_perform (web (srv_flood k)) (chunk_url hs_ex fid) CONNECT_TRIES 200000 (fresh_req hs_ex fid []) web_world =
    (Ok (CURLE_OK, Some 200, q), after_perform (chunk_url hs_ex fid) web_world)).
  { unfold CONNECT_TRIES. cbn [retried_curl_easy_perform].
    assert (HP1 : curl_easy_perform (web (srv_flood k)) (chunk_url hs_ex fid) (fresh_req hs_ex fid []) web_world = (Ok (CURLE_OK, Some 200, q), after_perform (chunk_url hs_ex fid) web_world)).
    { unfold curl_easy_perform. change (e_server (web (srv_flood k)) (chunk_url hs_ex fid) (w_nperf web_world)) with (srv_flood k 0). cbv zeta. change (p_code (srv_flood k 0)) with (Some 200). change (p_segs (srv_flood k 0)) with (flood k). change (p_end (srv_flood k 0)) with CURLE_OK.
      fold (after_perform (chunk_url hs_ex fid) web_world). rewrite (bind_eq _ _ _ _ _ HD). reflexivity. }
    rewrite (bind_eq _ _ _ _ _ HP1). reflexivity. }
  assert (HG : store_http_get_chunk (web (srv_flood k)) hs_ex fid [] web_world = (Ok (Some 0, [], hs_after hs_ex q 0), after_perform (chunk_url hs_ex fid) web_world)).
  { unfold store_http_get_chunk. erewrite bind_eq by reflexivity. cbv beta iota. cbn [hs_key hs_ex]. erewrite bind_eq by reflexivity. cbn [negb hs_key hs_ex].
    fold hs_ex. change (mkReq STARTED [] 0 [] (hs_dec_cap hs_ex) [] None) with (fresh_req hs_ex fid []). rewrite (bind_eq _ _ _ _ _ HP).
    cbv zeta. cbn [curl_is_transient_error]. change ((200 =? 404) || (200 =? 410)) with false. change (400 <=? 200) with false. cbv iota. rewrite D2, D3.
    rewrite firstn_nil. erewrite bind_eq by reflexivity. cbn [negb]. reflexivity. }
  eexists. eexists. eexists. eexists. split; [apply web_ok|]. split; [|split; [apply hs_ex_ok|split; [reflexivity|split; [|split; [exact HG|]]]]].
  - intros u j x Hx. specialize (HI x Hx). unfold OFF_LIMIT. lia.
  - intros u j x Hx. exact (HI x Hx).
  - cbn [hs_after hs_dec_cap]. cbn [rq_dec] in D5. lia.
Qed.

Lemma C29_ex : http_ok hs_ex /\ decodes (web (fun _ => ok_ex)) frame_ex frame_ex /\ e_H (web (fun _ => ok_ex)) frame_ex = fid /\
  serves (web (fun _ => ok_ex)) (chunk_url hs_ex fid) (w_nperf web_world) frame_ex /\ hs_dec_cap hs_ex <= 2 * 1000 /\ blen frame_ex <= 1000.
Proof.
  split; [apply hs_ex_ok|]. split; [apply toy_decodes|]. split; [reflexivity|]. split; [|split; vm_compute; discriminate].
  split; [reflexivity|]. split; [reflexivity|]. split; [reflexivity|]. cbn. intros H. repeat (destruct H as [H|H]; [discriminate|]). exact H.
Qed.
