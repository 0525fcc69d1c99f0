(** A store encrypted by csn-tool and read by csn, for C80. *)
From Verif Require Import Base Lib SpecBasic SpecCrypto SpecEnv Utils Encrypt Caibx StoreHttp Chain MainProg SpecCaibx SpecStore SpecHttp SpecRun SpecAvail Tool SpecTool SpecHost
  PfBasic PfKeyspec PfCaibx PfCaibx2 PfTool PfAvail PfHost Toy Ex1 Ex2 Ex4 Ex5 Ex6 Ex8 Ex9.
Local Open Scope N_scope.

Definition dir : bytes := bs "d".
Definition path_of (root id : bytes) : bytes := let hx := chunk_format_id id in root ++ bs "/" ++ firstn 4 hx ++ bs "/" ++ hx ++ bs ".cacnk".
Definition path_a : bytes := Eval vm_compute in path_of dir (toyH pa).
Definition path_b : bytes := Eval vm_compute in path_of dir (toyH pb).
Definition fs18 (p : bytes) : option bytes := if beq p path_a then Some pa else if beq p path_b then Some pb else None.
Definition tw18 : tworld := tool_world fs18 (repeat (IoN 1000) 20) (path_a ++ [10] ++ path_b ++ [10]).
Definition tw18' : tworld := snd (tool_main crypt_in tw18).
Definition zeros : bytes := repeat 0 32.
Lemma tool18 : fst (tool_main crypt_in tw18) = Ok 0. Proof. vm_compute. reflexivity. Qed.
Lemma tool18_ok : tool_main crypt_in tw18 = (Ok 0, tw18').
Proof. rewrite <- tool18. unfold tw18'. apply surjective_pairing. Qed.
Lemma lines18 : input_lines (tw_stdin tw18) [path_a; path_b].
Proof.
  split; [reflexivity|]. constructor; [|constructor; [|constructor]]; (split; [apply no_nul_b; vm_compute; reflexivity|]; split; [|apply Nat.ltb_lt; vm_compute; reflexivity]);
  intros c X [->| ->]; match goal with X : In ?c ?p |- _ => assert (H : existsb (fun x => x =? c) p = true) by (apply existsb_exists; exists c; auto) end; vm_compute in H; discriminate H.
Qed.
Lemma lower_b l : forallb (fun c => existsb (fun x => x =? c) lower_alphabet) l = true -> Forall (fun c => In c lower_alphabet) l.
Proof. intros H. rewrite forallb_forall in H. apply Forall_forall. intros c Hc. apply H in Hc. apply existsb_exists in Hc as (x & X & Y). apply N.eqb_eq in Y. now subst. Qed.
Lemma path_url root id : bytes_ok id -> Forall (fun c => In c lower_alphabet) (chunk_format_id id) -> casync_url root id (path_of root id) false.
Proof. intros H1 H2. exists (chunk_format_id id). split; [now apply format_denotes|]. split; [exact H2|]. unfold path_of. now rewrite app_nil_r. Qed.
Lemma hash_a P : In P pieces9 -> bytes_ok (toyH P) /\ Forall (fun c => In c lower_alphabet) (chunk_format_id (toyH P)).
Proof. intros [<-|[<-|[<-|[]]]]; (split; [apply small_bytes; vm_compute; reflexivity|apply lower_b; vm_compute; reflexivity]). Qed.

(** The server: every other transfer fails. *)
Definition strip (pre s : bytes) : option bytes := if startswith s pre then Some (skipn (length pre) s) else None.
Definition srv18 (fs : bytes -> option bytes) (url : bytes) (n : nat) : perf :=
  if Nat.even n then mkPerf None [] CURLE_COULDNT_CONNECT else
  match strip site url with
  | Some rel => match fs (dir ++ rel) with
                | Some d => mkPerf (Some 200) (match d with [] => [] | _ => [d] end) CURLE_OK
                | None => mkPerf (Some 404) [] CURLE_OK
                end
  | None => mkPerf (Some 404) [] CURLE_OK
  end.
Definition E18 : env := toy_env (srv18 (tw_fs tw18')) open_char open_char (fun _ => KReg) (fun _ => None).
Lemma hosts18 : hosts E18 site dir (tw_fs tw18').
Proof.
  intros rel d m H. assert (S : strip site (site ++ bs "/" ++ rel) = Some (bs "/" ++ rel)).
  { unfold strip. rewrite (proj2 (startswith_spec _ _) (ex_intro _ _ eq_refl)). reflexivity. }
  assert (G : forall k, (Nat.even k = true -> fails_early E18 (site ++ bs "/" ++ rel) k) /\ (Nat.even k = false -> serves E18 (site ++ bs "/" ++ rel) k d)).
  { intros k. unfold fails_early, serves. cbn [E18 toy_env e_server]. unfold srv18. destruct (Nat.even k) eqn:Ek; (split; [intros X|intros X]; try discriminate X).
    - split; [reflexivity|left; reflexivity].
    - rewrite S, H. cbn [p_code p_end p_segs]. split; [reflexivity|]. split; [reflexivity|]. destruct d as [|x d]; [split; [reflexivity|intros []]|]. cbn [concat]. rewrite app_nil_r. split; [reflexivity|]. intros [X2|[]]. discriminate X2. }
  destruct (Nat.even m) eqn:Em.
  - exists 1%nat. split; [lia|]. split; [intros i Hi; replace i with 0%nat by lia; rewrite Nat.add_0_r; now apply G|]. apply G. rewrite Nat.add_1_r. rewrite Nat.even_succ, <- Nat.negb_even, Em. reflexivity.
  - exists 0%nat. split; [lia|]. split; [intros i Hi; lia|]. rewrite Nat.add_0_r. now apply G.
Qed.
(** What the tool left is small. *)
Lemma other_a : other_name path_a (path_a ++ bs ".enc"). Proof. exists (firstn 71 path_a). left. split; vm_compute; reflexivity. Qed.
Lemma other_b : other_name path_b (path_b ++ bs ".enc"). Proof. exists (firstn 71 path_b). left. split; vm_compute; reflexivity. Qed.
Lemma left_gen (fs' : bytes -> option bytes) p d : (forall p d, fs18 p = Some d -> fs' p = Some d) ->
  (forall p d, fs18 p = None -> fs' p = Some d -> exists l, In l [path_a; path_b] /\ other_name l p) ->
  (forall l, In l [path_a; path_b] -> exists out d, other_name l out /\ fs' out = Some d /\ (length d <= 6)%nat) -> fs' p = Some d -> blen d < OFF_LIMIT.
Proof.
  intros K N L H. destruct (fs18 p) as [d2|] eqn:Eo.
  - apply K in Eo as X. assert (d = d2) as -> by congruence. unfold fs18 in Eo.
    destruct (beq p path_a); [injection Eo as <-; vm_compute; reflexivity|]. destruct (beq p path_b); [injection Eo as <-; vm_compute; reflexivity|discriminate].
  - destruct (N p d Eo H) as (l & Hl & Ho). destruct (L l Hl) as (out & d2 & Ho2 & Hd & Hs). rewrite (other_unique _ _ _ Ho Ho2) in H. assert (d = d2) as -> by congruence. unfold blen, OFF_LIMIT. lia.
Qed.
Lemma left18 p d : tw_fs tw18' p = Some d -> blen d < OFF_LIMIT.
Proof.
  destruct ex_argv as (_ & _ & A). destruct ex_args as (_ & _ & B). destruct (tool_lines _ _ _ _ _ A (ex_strings _ _ _) B lines18 tool18_ok) as (key & _ & F & N).
  assert (K : SpecTool.keeps tw18 tw18') by exact (proj2 (tool_keeps crypt_in tw18 A (ex_strings _ _ _))).
  apply (left_gen (tw_fs tw18') p d); [exact K|exact N|]. intros l Hl. rewrite Forall_forall in F. destruct (F l Hl) as (id & out & e & _ & Ho & He & Hc). exists out, e. split; [exact Ho|]. split; [exact He|].
  assert (No : tw_fs tw18 out = None) by (destruct Hl as [<-|[<-|[]]]; [rewrite (other_unique _ _ _ Ho other_a)|rewrite (other_unique _ _ _ Ho other_b)]; vm_compute; reflexivity).
  destruct (Hc No) as (l' & id' & data & Hl' & _ & _ & Hd & (Le & _)). rewrite Le. clear - Hl' Hd K.
  assert (X : exists d0, fs18 l' = Some d0 /\ (length d0 <= 6)%nat). { destruct Hl' as [<-|[<-|[]]]; [exists pa|exists pb]; (split; [vm_compute; reflexivity|vm_compute; lia]). }
  destruct X as (d0 & X & Y). pose proof (K l' d0 X) as Z. assert (data = d0) as -> by congruence. exact Y.
Qed.
Definition url18 : bytes := bs "http://h/x/".
Definition arg18 : bytes := url18 ++ bs "#encrypt=" ++ k0.
Definition argv18 : list bytes := [bs "csn"; bs "i"; bs "t"; arg18].
Lemma arg18_nul : no_nul arg18. Proof. apply no_nul_b. vm_compute. reflexivity. Qed.
Lemma sane18 n : sane E18 argv18 (w9 n).
Proof.
  constructor.
  - apply toy_ok.
  - intros u k s. cbn [E18 toy_env e_server]. unfold srv18. destruct (Nat.even k); [intros []|]. destruct (strip site u) as [rel|]; [|intros []].
    destruct (tw_fs tw18' (dir ++ rel)) as [d|] eqn:F; [|intros []]. apply left18 in F. cbn [p_segs]. destruct d; [intros []|]. intros [<-|[]]. exact F.
  - intros v s X. discriminate X.
  - apply files9.
  - constructor; [apply arg18_nul|constructor].
  - intros X. vm_compute in X. discriminate X.
  - intros ino X Y. vm_compute in X, Y. congruence.
  - intros ino arg path X [<-|[]] (ip & HA) Y. vm_compute in HA. discriminate HA.
  - intros ino p k arg path X HV [<-|[]] (ip & HA). vm_compute in HA. discriminate HA.
Qed.
Lemma described18 n : described E18 argv18 (w9 n) pieces9.
Proof. exact (described9 n). Qed.
Lemma fed18 f h c p : fed E18 f f h c p -> c = p /\ (c <= length f)%nat.
Proof.
  induction 1 as [|h c p inp rest room dc dp H IH Hi Hs Hr HZ]; [split; [reflexivity|lia]|].
  destruct IH as [-> IH]. cbn in HZ. injection HZ as <- <-.
  apply (f_equal (@length N)) in Hs. rewrite skipn_length, app_length in Hs. rewrite firstn_length. lia.
Qed.
Lemma decodes18 t : decodes E18 ([40; 181; 47; 253] ++ t) ([40; 181; 47; 253] ++ t).
Proof.
  split; [eauto|]. set (f := [40; 181; 47; 253] ++ t). clearbody f. intros h c p inp rest room H Hi Hs Hr.
  apply fed18 in H as [<- H]. pose proof (f_equal (@length N) Hs) as L. rewrite skipn_length, app_length in L.
  exists (length inp), inp. split; [cbn; rewrite Nat.min_l by lia; now rewrite firstn_all|]. split; [lia|].
  exists rest. split; [exact Hs|]. intros ->. auto.
Qed.
Lemma kept18 P : In P pieces9 -> exists path, kept_at E18 dir (tw_fs tw18) P path 4294967295 /\ In path [path_a; path_b] /\ tw_fs tw18 (path ++ bs ".enc") = None.
Proof.
  intros H. pose proof (hash_a P H) as (Hh1 & Hh2). exists (path_of dir (toyH P)). split; [|destruct H as [<-|[<-|[<-|[]]]]; (split; [vm_compute; auto|vm_compute; reflexivity])].
  split; [apply path_url; assumption|]. exists P. destruct H as [<-|[<-|[<-|[]]]]; (split; [vm_compute; reflexivity|]; split; [apply decodes18|vm_compute; discriminate]).
Qed.
Definition began (r : outcome init_res * world) : option (bool * list ioev) := match r with (Ok (InitOk _), w1) => Some (w_kcapi w1, w_io w1) | _ => None end.
Lemma began18 n : began (init E18 argv18 (w9 (20 + n))) = Some (false, repeat (IoN 1000) (16 + n)). Proof. vm_compute. reflexivity. Qed.
Lemma began_gen (r : outcome init_res * world) b l : began r = Some (b, l) ->
  exists su w1, r = (Ok (InitOk su), w1) /\ w_kcapi w1 = b /\ w_io w1 = l.
Proof. destruct r as [[[su| |]| | |] w1]; intros B; try discriminate B. exists su, w1. injection B as B1 B2. auto. Qed.
Lemma init18 n : exists su w1, init E18 argv18 (w9 (20 + n)) = (Ok (InitOk su), w1) /\ w_kcapi w1 = false /\ (n <= transfers (w_io w1))%nat.
Proof.
  destruct (began_gen (init E18 argv18 (w9 (20 + n))) false (repeat (IoN 1000) (16 + n)) (began18 n)) as (su & w1 & A & B & C). exists su, w1. split; [exact A|]. split; [exact B|]. rewrite C, transfers_repeat. lia.
Qed.
Lemma zeros_key t : t = repeat 48 64 -> hex_denotes t zeros.
Proof. intros ->. apply hex_denotes_iff; [apply no_nul_b; vm_compute; reflexivity|exists 32%nat; reflexivity|vm_compute; reflexivity]. Qed.
Lemma not_in (c : N) l : existsb (fun x => x =? c) l = false -> ~ In c l.
Proof. intros H X. assert (Y : existsb (fun x => x =? c) l = true) by (apply existsb_exists; exists c; split; [exact X|apply N.eqb_refl]). congruence. Qed.
(** Everything C80 asks for. *)
Lemma tool_side18 : Forall no_nul crypt_in /\ tool_strings tw18 /\ crypt_args crypt_in k0 None None /\ input_lines (tw_stdin tw18) [path_a; path_b] /\
  tool_main crypt_in tw18 = (Ok 0, tw18') /\ tool_key tw18 k0 zeros /\
  (forall P, In P pieces9 -> exists path, kept_at E18 dir (tw_fs tw18) P path 4294967295 /\ In path [path_a; path_b] /\ tw_fs tw18 (path ++ bs ".enc") = None).
Proof.
  split; [apply ex_argv|]. split; [apply ex_strings|]. split; [apply ex_args|]. split; [exact lines18|]. split; [exact tool18_ok|]. split; [apply key_0|exact kept18].
Qed.
Lemma key_side18 w : url_base url18 site /\ hosts E18 site dir (tw_fs tw18') /\ ~ In 35 k0 /\ ~ In 44 k0 /\ key_text E18 w k0 (repeat 48 64) /\ hex_denotes (repeat 48 64) zeros.
Proof.
  split; [left; reflexivity|]. split; [exact hosts18|]. split; [apply not_in; vm_compute; reflexivity|]. split; [apply not_in; vm_compute; reflexivity|]. split; [now apply kt_lit|now apply zeros_key].
Qed.
Lemma csn_side18 n : let arg := url18 ++ bs "#encrypt=" ++ k0 in
  sane E18 argv18 (w9 (20 + n)) /\ described E18 argv18 (w9 (20 + n)) pieces9 /\ (forall P, In P pieces9 -> 0 < blen P <= BUF_SIZE) /\
  error_free (w_io (w9 (20 + n))) /\ w_alloc (w9 (20 + n)) = [] /\ hash_reliable E18 (w9 (20 + n)) /\
  (forall ino, e_open_rw E18 (cmd_target argv18) = Some ino -> has_room E18 (w9 (20 + n)) ino (blen (concat pieces9))) /\
  In arg (cmd_stores argv18) /\ classify_arg (cmd_target argv18) arg = ArgHttp arg /\
  (forall a path ip, In a (cmd_stores argv18) -> classify_arg (cmd_target argv18) a = ArgLocal path ip -> ip = None) /\
  exists su w1, init E18 argv18 (w9 (20 + n)) = (Ok (InitOk su), w1) /\ w_kcapi w1 = false /\ (n <= transfers (w_io w1))%nat.
Proof.
  destruct (quiet9 (20 + n)) as (Q1 & Q2 & Q3 & Q4). split; [apply sane18|]. split; [apply described18|]. split; [exact sizes9|]. split; [exact Q1|]. split; [exact Q2|]. split; [left; split; [reflexivity|exact Q3]|].
  split; [intros ino X; apply (room9 (20 + n)); exact X|]. split; [now left|]. split; [vm_compute; reflexivity|]. split; [|apply init18]. intros a path ip [<-|[]] X. vm_compute in X. discriminate X.
Qed.
