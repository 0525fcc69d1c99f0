(** Concrete runs of csn-tool for Properties8.v. *)
From Verif Require Import Base Lib SpecBasic SpecCrypto Utils Encrypt Tool SpecTool PfBasic PfTool.
Local Open Scope N_scope.

Definition k0 : bytes := bs "key:" ++ repeat 48 64.
Definition hx_a : bytes := repeat 97 64.
Definition id_a : bytes := repeat 170 32.
Definition plain_p : bytes := bs "d/" ++ hx_a ++ bs ".cacnk".
Definition enc_p : bytes := bs "d/" ++ hx_a ++ bs ".cacnk.enc".
Definition text : bytes := bs "hello".
Definition one_file (p d : bytes) : bytes -> option bytes := fun q => if beq q p then Some d else None.
Definition tool_world (fs : bytes -> option bytes) (io : list ioev) (inp : bytes) : tworld := mkTW fs io [] inp [] (fun _ => None).
Definition io8 : list ioev := [IoN 1; IoIntr; IoN 0; IoN 9; IoN 0; IoIntr; IoN 1; IoN 0; IoN 9; IoN 9; IoN 9; IoN 9; IoN 9].
Definition crypt_p : list bytes := [bs "csn-tool"; bs "crypt"; k0; plain_p].
Definition crypt_e : list bytes := [bs "csn-tool"; bs "crypt"; k0; enc_p].
Definition crypt_in : list bytes := [bs "csn-tool"; bs "crypt"; k0].
Definition w_a : tworld := tool_world (one_file plain_p text) io8 [].
Definition secret : bytes := crypted (repeat 0 32) id_a text.
Definition w_b : tworld := tool_world (one_file enc_p secret) io8 [].
Definition w_in : tworld := tool_world (one_file plain_p text) io8 (plain_p ++ [10]).

Lemma no_nul_b s : forallb (fun c => negb (c =? 0)) s = true -> no_nul s.
Proof. intros H X. rewrite forallb_forall in H. specialize (H _ X). discriminate H. Qed.
Lemma plain_chunk : chunk_path plain_p id_a.
Proof.
  exists hx_a. split; [reflexivity|]. split; [apply hex_denotes_iff; [apply no_nul_b; vm_compute; reflexivity|exists 32%nat; reflexivity|vm_compute; reflexivity]|]. left. split; [|right; exists (bs "d"); reflexivity].
  intros X. assert (H : existsb (fun c => c =? 47) (hx_a ++ bs ".cacnk") = true) by (apply existsb_exists; exists 47; auto). vm_compute in H. discriminate H.
Qed.

Lemma key_0 w : tool_key w k0 (repeat 0 32).
Proof. exists (repeat 48 64). split; [apply tk_lit; reflexivity|]. split; [reflexivity|]. apply hex_denotes_iff; [apply no_nul_b; vm_compute; reflexivity|exists 32%nat; reflexivity|vm_compute; reflexivity]. Qed.
Lemma ex_strings fs io i : tool_strings (tool_world fs io i).
Proof. intros v s X. discriminate X. Qed.
Lemma ex_argv : Forall no_nul crypt_p /\ Forall no_nul crypt_e /\ Forall no_nul crypt_in.
Proof. repeat split; repeat constructor; apply no_nul_b; vm_compute; reflexivity. Qed.
Lemma ex_args : crypt_args crypt_p k0 (Some plain_p) None /\ crypt_args crypt_e k0 (Some enc_p) None /\ crypt_args crypt_in k0 None None.
Proof. split; [|split]; exists (bs "csn-tool"); split; auto. Qed.
Lemma ex_other : other_name plain_p enc_p.
Proof. exists (bs "d/" ++ hx_a). left. split; reflexivity. Qed.
(** There and back. *)
Lemma ex_there : let r := tool_main crypt_p w_a in (fst r, tw_fs (snd r) plain_p, tw_fs (snd r) enc_p) = (Ok 0, Some text, Some secret).
Proof. vm_compute. reflexivity. Qed.
Lemma ex_back : let r := tool_main crypt_e w_b in (fst r, tw_fs (snd r) plain_p, tw_fs (snd r) enc_p) = (Ok 0, Some text, Some secret).
Proof. vm_compute. reflexivity. Qed.
Lemma ex_secret : secret <> text.
Proof. vm_compute. discriminate. Qed.
Lemma ex_in : let r := tool_main crypt_in w_in in (fst r, tw_fs (snd r) enc_p) = (Ok 0, Some secret).
Proof. vm_compute. reflexivity. Qed.
Lemma ex_lines : input_lines (tw_stdin w_in) [plain_p].
Proof.
  split; [reflexivity|]. constructor; [|constructor]. split; [apply no_nul_b; vm_compute; reflexivity|]. split; [|apply Nat.ltb_lt; vm_compute; reflexivity].
  intros c X [->| ->]; [assert (H : existsb (fun c => c =? 13) plain_p = true) by (apply existsb_exists; exists 13; auto)|assert (H : existsb (fun c => c =? 10) plain_p = true) by (apply existsb_exists; exists 10; auto)]; vm_compute in H; discriminate H.
Qed.
Lemma ex_enough : ~ In false (tw_ok w_a) /\ error_free (tw_io w_a) /\ (2 * length text <= transfers (tw_io w_a))%nat /\ tw_fs w_a plain_p = Some text.
Proof. split; [intros []|]. split; [repeat constructor; discriminate|]. split; [vm_compute; repeat constructor|vm_compute; reflexivity]. Qed.
(** Stopped in the middle of the write, then run again. *)
Definition w_cut : tworld := tool_world (one_file plain_p text) [IoN 9; IoN 1] [].
Lemma ex_cut : let r := tool_main crypt_p w_cut in (fst r, tw_fs (snd r) enc_p) = (Halt, Some (firstn 2 secret)).
Proof. vm_compute. reflexivity. Qed.
Lemma ex_rerun : let w1 := snd (tool_main crypt_p w_cut) in let w2 := tool_world (tw_fs w1) io8 [] in let r := tool_main crypt_p w2 in
  (fst r, tw_fs (snd r) enc_p) = (Ok 0, Some (firstn 2 secret)).
Proof. vm_compute. reflexivity. Qed.
Lemma rerun_incomplete : exists argv spec input out key id data w1 w2 w3 d, Forall no_nul argv /\ crypt_args argv spec (Some input) None /\ tool_key w1 spec key /\ chunk_path input id /\ other_name input out /\
  tw_fs w1 input = Some data /\ tw_fs w1 out = None /\ fst (tool_main argv w1) = Halt /\
  (forall p, tw_fs w2 p = tw_fs (snd (tool_main argv w1)) p) /\ tool_main argv w2 = (Ok 0, w3) /\ tw_fs w3 out = Some d /\ ~ is_crypted key id data d.
Proof.
  exists crypt_p, k0, plain_p, enc_p, (repeat 0 32), id_a, text, w_cut. set (w1 := snd (tool_main crypt_p w_cut)). set (w2 := tool_world (tw_fs w1) io8 []). exists w2, (snd (tool_main crypt_p w2)), (firstn 2 secret).
  split; [apply ex_argv|]. split; [apply ex_args|]. split; [apply key_0|]. split; [apply plain_chunk|]. split; [apply ex_other|]. split; [vm_compute; reflexivity|]. split; [vm_compute; reflexivity|]. split; [vm_compute; reflexivity|].
  split; [reflexivity|]. pose proof ex_rerun as R. cbv zeta in R. fold w1 w2 in R. apply pair_equal_spec in R as (R1 & R2). split; [rewrite <- R1; apply surjective_pairing|]. split; [exact R2|]. intros (L & _). vm_compute in L. discriminate L.
Qed.
(** With the partial file removed. *)
Definition w_rem : tworld := tool_world (one_file plain_p text) io8 [].
Lemma ex_removed : tw_fs w_rem enc_p = None /\ forall p, p <> enc_p -> tw_fs w_rem p = tw_fs (snd (tool_main crypt_p w_cut)) p.
Proof.
  split; [vm_compute; reflexivity|]. intros p Hp. pose proof ex_argv as (A & _). destruct (tw_fs (snd (tool_main crypt_p w_cut)) p) as [d|] eqn:X.
  - destruct (tw_fs w_cut p) as [d2|] eqn:Y.
    + destruct (tool_keeps crypt_p w_cut A (ex_strings _ _ _)) as (_ & K). apply K in Y as Z. rewrite X in Z. injection Z as ->. exact Y.
    + destruct (tool_outputs crypt_p w_cut p d A (ex_strings _ _ _) Y X) as (spec & key & i & g & id & data & c & _ & Ha & _ & Ho & _). destruct ex_args as (Ea & _). destruct Ha as [Ha|(Ha & _)].
      * destruct (crypt_args_unique _ _ _ _ _ _ _ Ea Ha) as (_ & E1 & <-). injection E1 as <-. destruct Hp. exact (other_unique _ _ _ Ho ex_other).
      * destruct (crypt_args_unique _ _ _ _ _ _ _ Ea Ha) as (_ & E1 & _). discriminate E1.
  - destruct (tw_fs w_cut p) as [d2|] eqn:Y; [|exact Y]. destruct (tool_keeps crypt_p w_cut A (ex_strings _ _ _)) as (_ & K). apply K in Y. rewrite X in Y. discriminate Y.
Qed.
(** A name that is none of a chunk. *)
Definition odd_p : bytes := hx_a ++ bs ".bak.cacnk".
Lemma odd_accepted : exists path id, no_nul path /\ chunk_id_from_path path = Some id /\ ~ exists id', chunk_path path id'.
Proof.
  exists odd_p, id_a. split; [apply no_nul_b; vm_compute; reflexivity|]. split; [vm_compute; reflexivity|]. intros (id' & hx & L & _ & H).
  assert (HL : last_part odd_p odd_p). { split; [|now left]. intros X. assert (H0 : existsb (fun c => c =? 47) odd_p = true) by (apply existsb_exists; exists 47; auto). vm_compute in H0. discriminate H0. }
  destruct H as [H|H]; pose proof (last_part_unique _ _ _ HL H) as E.
  - apply (f_equal (@length N)) in E. rewrite app_length, L in E. vm_compute in E. discriminate E.
  - assert (E2 : skipn 64 odd_p = skipn 64 (hx ++ bs ".cacnk.enc")) by now rewrite <- E. rewrite skipn_app, <- L, skipn_all, Nat.sub_diag in E2. rewrite L in E2. vm_compute in E2. discriminate E2.
Qed.
Lemma plain_accepted : no_nul plain_p /\ chunk_id_from_path plain_p = Some id_a.
Proof. split; [apply no_nul_b|]; vm_compute; reflexivity. Qed.
(** A file of 4 GiB. *)
Lemma plain_out data : blen data = 4294967296 ->
  exists w w', tw_fs w plain_p = Some data /\ tw_fs w enc_p = None /\ tool_main crypt_p w = (Ok 0, w') /\ tw_fs w' enc_p = Some data.
Proof.
  intros Hl. set (w := tool_world (one_file plain_p data) (repeat (IoN 0) (2 * length data)) []).
  assert (F1 : tw_fs w plain_p = Some data) by (unfold w, tool_world, one_file; cbn [tw_fs]; now rewrite beq_refl).
  assert (F2 : tw_fs w enc_p = None). { unfold w, tool_world, one_file; cbn [tw_fs]. replace (beq enc_p plain_p) with false by (vm_compute; reflexivity). reflexivity. }
  assert (R : fst (tool_main crypt_p w) = Ok 0).
  { apply (tool_succeeds crypt_p w k0 plain_p None id_a data (repeat 48 64) (repeat 0 32)).
    - apply ex_argv. - exact (ex_strings _ _ _). - apply ex_args. - reflexivity. - reflexivity.
    - apply hex_denotes_iff; [apply no_nul_b; vm_compute; reflexivity|exists 32%nat; reflexivity|vm_compute; reflexivity].
    - apply plain_chunk. - intros _. vm_compute. discriminate. - exact F1. - intros [].
    - unfold w, tool_world; cbn [tw_io]. apply Forall_forall. intros e X. apply repeat_spec in X. subst e. exact Logic.I.
    - unfold w, tool_world; cbn [tw_io]. clear. induction (2 * length data)%nat as [|n IH]; [constructor|]. cbn [repeat transfers]. apply le_n_S. exact IH. }
  assert (Sw : tool_strings w) by exact (ex_strings _ _ _). exists w, (snd (tool_main crypt_p w)). split; [exact F1|]. split; [exact F2|].
  assert (RR : tool_main crypt_p w = (Ok 0, snd (tool_main crypt_p w))) by (rewrite <- R; apply surjective_pairing). split; [exact RR|].
  destruct (tool_crypts _ _ _ _ _ _ (proj1 ex_argv) Sw (proj1 ex_args) RR) as (key & id & out & _ & _ & O & X).
  cbn [output_name] in O. rewrite (other_unique _ _ _ O ex_other) in X. destruct (X F2) as (data' & d & D1 & (D2 & _) & _ & D3 & D4). rewrite F1 in D1. injection D1 as <-.
  assert (Hne : enc_p <> bs "-") by (apply beq_neq; vm_compute; reflexivity). rewrite (D3 Hne). f_equal. apply nth_error_ext. intros i. destruct (Nat.ltb_spec i (length data)) as [Hi|Hi].
  - assert (E := D4 ltac:(rewrite Hl; apply N.le_refl) i ltac:(rewrite Hl; change (4294967296 mod 4294967296) with 0; lia)). unfold byte_of in E. exact E.
  - rewrite (proj2 (nth_error_None d i)) by lia. symmetry. now apply nth_error_None.
Qed.
Lemma plain_4g : exists argv w w' input out data, Forall no_nul argv /\ crypt_args argv k0 (Some input) None /\ (exists id, chunk_path input id) /\ other_name input out /\
  tw_fs w input = Some data /\ tw_fs w out = None /\ blen data = 4294967296 /\ tool_main argv w = (Ok 0, w') /\ tw_fs w' out = Some data.
Proof.
  assert (H : exists data : bytes, blen data = 4294967296) by (exists (repeat 0 (N.to_nat 4294967296)); unfold blen; rewrite repeat_length, N2Nat.id; reflexivity).
  destruct H as (data & H). destruct (plain_out data H) as (w & w' & A & B & C & D). exists crypt_p, w, w', plain_p, enc_p, data.
  split; [apply ex_argv|]. split; [apply ex_args|]. split; [exists id_a; apply plain_chunk|]. split; [apply ex_other|]. auto.
Qed.
Lemma ex_tcrypt : tcrypt (repeat 0 32) id_a text = secret.
Proof. vm_compute. reflexivity. Qed.
