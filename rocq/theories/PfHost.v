(** Stores encrypted by csn-tool and read by csn (C80). *)
From Verif Require Import Base Lib SpecBasic SpecEnv SpecCrypto SpecHttp Utils Index Target StoreHttp Chain MainProg SpecMain SpecRun SpecAvail Tool SpecTool SpecHost
  PfBasic PfKeyspec PfTool PfReport PfAvail.
Local Open Scope N_scope.

Lemma lower_denotes_unique h1 h2 id : hex_denotes h1 id -> hex_denotes h2 id -> Forall (fun c => In c lower_alphabet) h1 -> Forall (fun c => In c lower_alphabet) h2 -> h1 = h2.
Proof.
  assert (D : forall c v, In c lower_alphabet -> digit_value c v -> nth_error lower_alphabet (N.to_nat v) = Some c).
  { intros c v Hc [H|H]; [exact H|]. assert (L : (N.to_nat v < 16)%nat) by (change 16%nat with (length upper_alphabet); apply nth_error_Some; congruence).
    destruct (N.to_nat v) as [|[|[|[|[|[|[|[|[|[|[|[|[|[|[|[|k]]]]]]]]]]]]]]]]; try (exfalso; lia); cbn in H; injection H as <-; try reflexivity; exfalso; cbn in Hc; repeat (destruct Hc as [Hc|Hc]; [discriminate|]); destruct Hc. }
  intros H. revert h2. induction H as [|h l a b s d Hh Hl _ IH]; intros h2 H2 F1 F2.
  - inversion H2. reflexivity.
  - inversion H2 as [|h' l' a' b' s' d' Hh' Hl' HR E1 E2]; subst. inversion F1 as [|? ? A1 B1]; subst. inversion B1 as [|? ? A2 B2]; subst. inversion F2 as [|? ? A1' B1']; subst. inversion B1' as [|? ? A2' B2']; subst.
    apply D in Hh, Hl, Hh', Hl'; auto.
    assert (R : forall v (c : N), nth_error lower_alphabet (N.to_nat v) = Some c -> v < 16).
    { intros v c X. assert (L : (N.to_nat v < 16)%nat) by (change 16%nat with (length lower_alphabet); apply nth_error_Some; congruence). lia. }
    assert (a' = a /\ b' = b) as (-> & ->). { change (16 * a' + b' = 16 * a + b) in E2. pose proof (R _ _ Hh). pose proof (R _ _ Hl). pose proof (R _ _ Hh'). pose proof (R _ _ Hl'). lia. }
    assert (h = h') by congruence. assert (l = l') by congruence. subst. f_equal. f_equal. apply IH; auto.
Qed.
Lemma casync_path_chunk root id path : length id = 32%nat -> casync_url root id path false -> chunk_path path id.
Proof.
  intros L (hx & Hd & Hl & ->). exists hx. pose proof (hex_denotes_length _ _ Hd) as Lh. split; [lia|]. split; [exact Hd|]. left. split.
  - intros X. apply in_app_or in X as [X|X]; [|vm_compute in X; intuition discriminate]. rewrite Forall_forall in Hl. apply Hl in X. vm_compute in X. intuition discriminate.
  - right. exists (root ++ bs "/" ++ firstn 4 hx). rewrite <- !app_assoc, app_nil_r. reflexivity.
Qed.
Lemma casync_url_enc root id path : casync_url root id path false -> casync_url root id (path ++ bs ".enc") true.
Proof. intros (hx & A & B & ->). exists hx. split; [exact A|]. split; [exact B|]. rewrite app_nil_r, <- !app_assoc. reflexivity. Qed.
Lemma casync_url_unique b id u1 u2 e : casync_url b id u1 e -> casync_url b id u2 e -> u1 = u2.
Proof. intros (h1 & A1 & B1 & ->) (h2 & A2 & B2 & ->). now rewrite (lower_denotes_unique _ _ _ A1 A2 B1 B2). Qed.
(** The same chunk below another base. *)
Lemma casync_url_rel root id path e : casync_url root id path e -> exists rel, path = root ++ bs "/" ++ rel /\ forall base, casync_url base id (base ++ bs "/" ++ rel) e.
Proof. intros (hx & A & B & ->). eexists. split; [reflexivity|]. intros base. exists hx. auto. Qed.

(** What the tool leaves. *)
Lemma other_enc root id path out : casync_url root id path false -> other_name path out -> out = path ++ bs ".enc".
Proof.
  intros (hx & _ & _ & E) (b & [(H & ->)|(H & _)]).
  - rewrite H, <- app_assoc. reflexivity.
  - exfalso. rewrite app_nil_r in E. assert (X : (root ++ bs "/" ++ firstn 4 hx ++ bs "/" ++ hx) ++ bs ".cacnk" = (b ++ bs ".cac") ++ bs "nk.enc") by (rewrite <- !app_assoc; change (bs ".cac" ++ bs "nk.enc") with (bs ".cacnk.enc"); congruence).
    apply app_inv_len in X as (_ & X); [discriminate|reflexivity].
Qed.
Lemma enc_other path l : other_name l (path ++ bs ".enc") -> (exists b, path = b ++ bs ".cacnk") -> l = path.
Proof.
  intros (c & [(-> & H)|(-> & H)]) (b & ->).
  - change (bs ".cacnk.enc") with (bs ".cacnk" ++ bs ".enc") in H. rewrite app_assoc in H. apply app_inv_tail in H. congruence.
  - exfalso. change (bs ".cacnk") with (bs ".c" ++ bs "acnk") in H at 2. rewrite (app_assoc c) in H. apply app_inv_len in H as (_ & H); [discriminate|reflexivity].
Qed.
Lemma tool_encrypts argv w w' spec key ls root id path body : Forall no_nul argv -> tool_strings w -> crypt_args argv spec None None -> input_lines (tw_stdin w) ls -> tool_main argv w = (Ok 0, w') ->
  tool_key w spec key -> length id = 32%nat -> In path ls -> casync_url root id path false -> tw_fs w path = Some body -> blen body < 4294967296 -> tw_fs w (path ++ bs ".enc") = None ->
  tw_fs w' (path ++ bs ".enc") = Some (crypted key id body).
Proof.
  intros A B Ha Hl H Hk Li Hin Hu Hb Hlim Hnew. destruct (tool_lines _ _ _ _ _ A B Ha Hl H) as (key' & Hk' & F & _). rewrite (tool_key_unique _ _ _ _ Hk' Hk) in F.
  rewrite Forall_forall in F. destruct (F _ Hin) as (id0 & out & d & _ & Ho & Hd & Hc). rewrite (other_enc _ _ _ _ Hu Ho) in *. destruct (Hc Hnew) as (l' & id' & data & Hin' & Hid & Ho' & Hdat & Hcr).
  assert (l' = path) as ->. { apply enc_other in Ho'; [exact Ho'|]. destruct Hu as (hx & _ & _ & ->). exists (root ++ bs "/" ++ firstn 4 hx ++ bs "/" ++ hx). rewrite app_nil_r, <- !app_assoc. reflexivity. }
  pose proof (tool_keeps argv w A B) as (_ & K). rewrite H in K. specialize (K _ _ Hb). cbn [snd] in K. assert (data = body) as -> by congruence.
  assert (Np : no_nul path) by (destruct Hl as (_ & Hl); rewrite Forall_forall in Hl; apply (Hl _ Hin)).
  pose proof (casync_path_chunk _ _ _ Li Hu) as HP.
  assert (id' = id) as ->. { assert (X : chunk_id_from_path path = Some id') by (apply chunk_names; auto). assert (Y : chunk_id_from_path path = Some id) by (apply chunk_names; auto). congruence. }
  destruct Hcr as (_ & Hcr). now rewrite <- (Hcr Hlim).
Qed.

(** What the server then has. *)
Lemma hosted_plain E base root fs P path : hosts E base root fs -> kept_at E root fs P path (2 ^ 38) -> has_chunk E base None P.
Proof.
  intros HH (Hu & body & Hb & Hd & Hl). exists body. split; [exact Hd|]. split; [exact Hl|]. intros url Hurl m. destruct (casync_url_rel _ _ _ _ Hu) as (rel & -> & Hr).
  rewrite (casync_url_unique _ _ _ _ _ Hurl (Hr base)). apply HH, Hb.
Qed.
Lemma hosted_encrypted E base root argv w w' spec key ls P path : Forall no_nul argv -> tool_strings w -> crypt_args argv spec None None -> input_lines (tw_stdin w) ls -> tool_main argv w = (Ok 0, w') ->
  tool_key w spec key -> length (e_H E P) = 32%nat -> hosts E base root (tw_fs w') -> kept_at E root (tw_fs w) P path 4294967295 -> In path ls -> tw_fs w (path ++ bs ".enc") = None ->
  has_chunk E base (Some key) P.
Proof.
  intros A B Ha Hl H Hk Li HH (Hu & body & Hb & Hd & Hlim) Hin Hnew. exists body. split; [exact Hd|]. split; [change (2 ^ 38) with 274877906944; lia|]. intros url Hurl m.
  pose proof (tool_encrypts _ _ _ _ _ _ _ _ _ _ A B Ha Hl H Hk Li Hin Hu Hb ltac:(lia) Hnew) as X. apply casync_url_enc in Hu. destruct (casync_url_rel _ _ _ _ Hu) as (rel & Ep & Hr).
  rewrite (casync_url_unique _ _ _ _ _ Hurl (Hr base)). rewrite Ep in X. exact (HH _ _ m X).
Qed.

(** ** The argument *)
Lemma kt_unique E w spec s1 s2 : key_text E w spec s1 -> key_text E w spec s2 -> s1 = s2.
Proof.
  intros [s H|v s H H1|p ino H H1 H2] [s' H'|v' s' H' H1'|p' ino' H' H1' H2']; rewrite H in H'; try discriminate H'; apply app_inv_head in H'; subst; congruence.
Qed.
Lemma denotes_key E w url spec t key b k : ~ In 35 spec -> ~ In 44 spec -> key_text E w spec t -> hex_denotes t key ->
  store_denotes E w (url ++ bs "#encrypt=" ++ spec) b k -> url_base url b /\ k = Some key.
Proof.
  intros H35 H44 Ht Hx (u & params & Hs & Hb & Hk). assert (Ea : url ++ bs "#encrypt=" ++ spec = url ++ [35] ++ (bs "encrypt=" ++ spec)) by reflexivity. rewrite Ea in Hs.
  destruct Hs as [(_ & _ & Hs)|(Hs & Hq)]; [exfalso; apply Hs, in_or_app; right; now left|].
  apply last_unique in Hs as (<- & <-); auto.
  2:{ intros X. apply in_app_or in X as [X|X]; [vm_compute in X; intuition discriminate|contradiction]. }
  split; [exact Hb|]. remember (bs "encrypt=" ++ spec) as args eqn:Ep. remember (@None bytes) as k0 eqn:Ek. destruct Hk as [k|spec' k0 t' key' H1 H2 H3 H4|spec' rest k0 t' key' kf H1 H2 H3 H4 H5].
  - discriminate.
  - apply app_inv_head in Ep. subst spec'. rewrite (kt_unique _ _ _ _ _ Ht H2) in Hx. apply parse_hex_denotes in Hx, H4. congruence.
  - apply app_inv_head in Ep. exfalso. apply H44. rewrite <- Ep. apply in_or_app. right. now left.
Qed.
Lemma base_unique url b1 b2 : url_base url b1 -> url_base url b2 -> b1 = b2.
Proof.
  intros [H1|(H1 & N1)] [H2|(H2 & N2)].
  - rewrite H1 in H2. now apply app_inj_tail in H2.
  - elim (N2 _ H1).
  - elim (N1 _ H2).
  - congruence.
Qed.
Lemma encrypted_end_to_end E argv w pieces url base spec t key root targv tw tw' tspec ls su w1 :
  Forall no_nul targv -> tool_strings tw -> crypt_args targv tspec None None -> input_lines (tw_stdin tw) ls -> tool_main targv tw = (Ok 0, tw') -> tool_key tw tspec key ->
  (forall P, In P pieces -> exists path, kept_at E root (tw_fs tw) P path 4294967295 /\ In path ls /\ tw_fs tw (path ++ bs ".enc") = None) ->
  url_base url base -> hosts E base root (tw_fs tw') -> ~ In 35 spec -> ~ In 44 spec -> key_text E w spec t -> hex_denotes t key ->
  let arg := url ++ bs "#encrypt=" ++ spec in
  sane E argv w -> described E argv w pieces -> (forall P, In P pieces -> 0 < blen P <= BUF_SIZE) ->
  error_free (w_io w) -> w_alloc w = [] -> hash_reliable E w -> (forall ino, e_open_rw E (cmd_target argv) = Some ino -> has_room E w ino (blen (concat pieces))) ->
  In arg (cmd_stores argv) -> classify_arg (cmd_target argv) arg = ArgHttp arg ->
  init E argv w = (Ok (InitOk su), w1) -> w_kcapi w1 = false ->
  (forall a path ip, In a (cmd_stores argv) -> classify_arg (cmd_target argv) a = ArgLocal path ip -> ip = None) ->
  (enough (length pieces) (length (cmd_stores argv)) <= transfers (w_io w1))%nat ->
  fst (main E argv w) = Ok 0 \/ exists tr, run_trace w (snd (main E argv w)) tr /\ false_answer E pieces tr.
Proof.
  intros A B Ha Hl H Hk Hp Hub HH H35 H44 Ht Hx arg HS HD Hlen He Hal Hr Hroom Hin Hcl Hi Hkc Hnoi Htr.
  apply (succeeds E argv w pieces arg su w1); auto. intros b k P Hden HP. destruct (denotes_key _ _ _ _ _ _ _ _ H35 H44 Ht Hx Hden) as (Hb & ->). rewrite (base_unique _ _ _ Hb Hub).
  destruct (Hp P HP) as (path & K1 & K2 & K3). eapply hosted_encrypted; eauto. apply (sa_env _ _ _ HS).
Qed.
