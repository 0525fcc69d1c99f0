(** The messages about stores, and the key in them. *)
From Verif Require Import Base Lib Utils Log SpecLog LogSites Chunker StoreLocal StoreHttp Chain MainProg Res Report SpecReport
  SpecBasic SpecEnv SpecHttp SpecRun SpecOrder PfOrder PfUtils PfBasic PfKeyspec PfHttp2 PfLog PfLog2 Ex12.
Local Open Scope N_scope.


Lemma render_u r n args : render None ([37; 117] ++ r) (AInt n :: args) = option_map (app (digits 10 n)) (render None r args).
Proof. reflexivity. Qed.
Lemma answered_printf h name : printf (bs "    %u answered by store %s") [AInt h; AStr name] = Some (answered_text h name).
Proof.
  unfold printf, answered_text. change (bs "    %u answered by store %s") with (bs "    " ++ [37; 117] ++ bs " answered by store " ++ [37; 115] ++ []).
  rewrite render_text by (apply free_bs; reflexivity). rewrite render_u, render_text by (apply free_bs; reflexivity). rewrite render_s. cbn [render option_map]. now rewrite app_nil_r.
Qed.
Lemma answered_in s : In s answered_sites -> In s sites /\ s_fmt s = bs "    %u answered by store %s" /\ s_file s = bs "store.c" /\ s_level s = U_LOG_INFO.
Proof. intros [<-|[<-|[]]]; repeat split; apply mem_site_in; vm_compute; reflexivity. Qed.
Lemma answered_fmt : bs "    %u answered by store %s" <> long_fmt. Proof. vm_compute. discriminate. Qed.
Lemma answered_complete s tty loglevel path h target arg : In s answered_sites -> is_basename path (bs "store.c") -> U_LOG_INFO <= loglevel ->
  answered_line s tty loglevel path h target arg = Some (full_message s tty (answered_text h (label target arg))).
Proof.
  intros Hs Hb Hl. destruct (answered_in s Hs) as (Hin & Hf & Hn & Hv). apply site_complete; auto.
  - rewrite Hf. exact answered_fmt.
  - now rewrite Hn.
  - now rewrite Hv.
  - rewrite Hf. apply answered_printf.
Qed.

Lemma failed_in : In failed_site sites. Proof. apply mem_site_in. vm_compute. reflexivity. Qed.
Lemma failed_complete tty loglevel path arg : is_basename path (bs "main.c") ->
  failed_line tty loglevel path arg = Some (full_message failed_site tty (bs "creating HTTP store from '" ++ arg ++ bs "' failed")).
Proof.
  intros Hb. apply site_complete; [| |exact Hb| |].
  - exact failed_in.
  - vm_compute. discriminate.
  - apply N.le_0_l.
  - unfold printf. change (s_fmt failed_site) with (bs "creating HTTP store from '" ++ [37; 115] ++ bs "' failed" ++ []).
    rewrite render_text by (apply free_bs; reflexivity). rewrite render_s, render_text by (apply free_bs; reflexivity). cbn [render option_map]. now rewrite app_nil_r.
Qed.

(** ** The key *)
Lemma hex_no c h : nibble c = None -> Forall is_hex h -> ~ In c h.
Proof. intros Hc Hh X. rewrite Forall_forall in Hh. apply Hh, nibble_hex in X as (v & Hv). congruence. Qed.
(** The text after the last 35. *)
Lemma last_unique (c : N) a b a' b' : a ++ [c] ++ b = a' ++ [c] ++ b' -> ~ In c b -> ~ In c b' -> a = a' /\ b = b'.
Proof.
  revert a'. induction a as [|x a IH]; intros [|x' a'] H Hb Hb'; cbn [app] in H.
  - injection H. auto.
  - injection H as _ H. exfalso. apply Hb. rewrite H. apply in_or_app. right. now left.
  - injection H as _ H. exfalso. apply Hb'. rewrite <- H. apply in_or_app. right. now left.
  - injection H as -> H. apply IH in H as (-> & ->); auto.
Qed.
Lemma literal_key E w hex k : ~ In 44 hex -> params_key (key_text E w) (bs "encrypt=" ++ bs "key:" ++ hex) None k -> exists key, k = Some key /\ hex_denotes hex key.
Proof.
  intros Hc H. remember (bs "encrypt=" ++ bs "key:" ++ hex) as args eqn:Ea. remember (@None bytes) as k0 eqn:Ek. destruct H as [k|spec k0 t key H1 H2 H3 H4|spec rest k0 t key kf H1 H2 H3 H4 H5].
  - discriminate.
  - apply app_inv_head in Ea. subst spec. exists key. split; [reflexivity|]. inversion H2 as [s E1|v s E1|p ino E1]; subst; try discriminate. apply app_inv_head in E1. now subst.
  - apply app_inv_head in Ea. exfalso. assert (X : In 44 (bs "key:" ++ hex)) by (rewrite <- Ea; apply in_or_app; right; now left).
    apply in_app_or in X as [X|X]; [vm_compute in X; intuition discriminate|contradiction].
Qed.
Lemma url_key E w w' pre hex hs : env_strings E -> no_nul pre -> length hex = 64%nat -> Forall is_hex hex ->
  store_http_new E (pre ++ key_param ++ hex) w = (Ok (Some hs), w') -> exists key, hs_key hs = Some key /\ hex_denotes hex key.
Proof.
  intros HE Hp Hl Hh R. assert (Hn : no_nul (pre ++ key_param ++ hex)).
  { intros X. apply in_app_or in X as [X|X]; [contradiction|]. apply in_app_or in X as [X|X]; [vm_compute in X; intuition discriminate|]. revert X. now apply hex_no. }
  pose proof (wp_http_new E _ w HE Hn) as H. unfold wp in H. rewrite R in H. destruct H as (url & params & Hs & _ & Hk & _).
  assert (Ea : pre ++ key_param ++ hex = pre ++ [35] ++ (bs "encrypt=" ++ bs "key:" ++ hex)) by reflexivity.
  assert (Hx : ~ In 35 (bs "encrypt=" ++ bs "key:" ++ hex)).
  { intros X. apply in_app_or in X as [X|X]; [vm_compute in X; intuition discriminate|]. apply in_app_or in X as [X|X]; [vm_compute in X; intuition discriminate|]. revert X. now apply hex_no. }
  destruct Hs as [(_ & _ & Hs)|(Hs & Hq)].
  - exfalso. apply Hs. rewrite Ea. apply in_or_app. right. now left.
  - rewrite Ea in Hs. apply last_unique in Hs as (_ & Hs); auto. subst params. eapply literal_key; [|exact Hk]. now apply hex_no.
Qed.
Lemma label_http target arg : startswith arg (bs "http") = true -> arg <> target -> label target arg = store_name arg.
Proof. intros Hs Hn. unfold label, classify_arg. destruct (beq arg target) eqn:Eb; [apply beq_eq in Eb; contradiction|]. now rewrite Hs. Qed.
Lemma name_key pre hex : (length pre <= 114)%nat -> store_name (pre ++ key_param ++ hex) = pre ++ key_param ++ firstn (114 - length pre) hex.
Proof.
  intros H. unfold store_name. rewrite firstn_app, firstn_all2 by lia. f_equal. rewrite firstn_app. change (length key_param) with 13%nat. rewrite (firstn_all2 key_param) by (change (length key_param) with 13%nat; lia). f_equal. f_equal. lia.
Qed.
Lemma key_shown s tty loglevel path h target pre hex : In s answered_sites -> is_basename path (bs "store.c") -> U_LOG_INFO <= loglevel ->
  startswith pre (bs "http") = true -> pre ++ key_param ++ hex <> target -> (length pre <= 114)%nat ->
  prints (firstn (114 - length pre) hex) (answered_line s tty loglevel path h target (pre ++ key_param ++ hex)).
Proof.
  intros Hs Hb Hl Hp Ht Hn. rewrite answered_complete by auto. rewrite label_http; auto.
  2:{ apply startswith_spec in Hp as (r & ->). apply startswith_spec. exists (r ++ key_param ++ hex). now rewrite <- app_assoc. }
  rewrite name_key by auto. unfold full_message, answered_text.
  exists (header tty (s_level s) (s_file s) (s_func s) (s_line s) ++ bs "    " ++ digits 10 h ++ bs " answered by store " ++ pre ++ key_param), (trailer tty).
  now rewrite !app_assoc.
Qed.
Lemma failed_shown tty loglevel path arg : is_basename path (bs "main.c") -> prints arg (failed_line tty loglevel path arg).
Proof.
  intros Hb. rewrite failed_complete by auto. unfold full_message.
  exists (header tty (s_level failed_site) (s_file failed_site) (s_func failed_site) (s_line failed_site) ++ bs "creating HTTP store from '"), (bs "' failed" ++ trailer tty).
  now rewrite <- !app_assoc.
Qed.

Lemma answered_named s tty loglevel path h target arg : In s answered_sites -> is_basename path (bs "store.c") -> U_LOG_INFO <= loglevel ->
  exists a, documented target arg a /\ answered_line s tty loglevel path h target arg = Some (full_message s tty (answered_text h (firstn 127 (called target a)))).
Proof.
  intros Hs Hb Hl. exists (classify_arg target arg). split; [apply classified|]. rewrite answered_complete by auto. unfold label, called, store_name. now destruct (classify_arg target arg).
Qed.
