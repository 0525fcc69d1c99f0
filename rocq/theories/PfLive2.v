(** Termination (C54): stores, target and main program. *)
From Coq Require Import Sorting.Permutation.
From Verif Require Import Base Lib Utils Sha Encrypt Discr Chunker Caibx Index StoreLocal Target StoreHttp Chain Ui MainProg
  SpecBasic SpecEnv SpecStore SpecMain SpecRun SpecLive PfUtils PfBasic PfIO PfReadonly PfMemory PfLive.
Local Open Scope nat_scope.

Section Live.
Variables (E : env) (Z : nat -> N) (kc : bool).
Hypothesis HE : env_ok E.
Notation cost := (PfLive.cost Z kc).
Notation inv := (PfLive.inv Z kc).

Ltac done := apply cost_le0; first [now apply cost_ret | apply cost_ub | apply cost_abort].
Ltac free := eapply cost_free; [first [apply cost_alloc | apply cost_trace | apply cost_assert]|]; let a := fresh "a" in intros a _.

(** ** Indices *)
Lemma cost_query x id : cost 0 (fun r => (forall e, In e (ix_entries (snd r)) -> In e (ix_entries x)) /\ ix_ptr (snd r) = ix_ptr x) (index_query E x id).
Proof.
  unfold index_query. assert (H : forall x', x' = (if ix_sorted x then x else index_sort E x) -> (forall e, In e (ix_entries x') -> In e (ix_entries x)) /\ ix_ptr x' = ix_ptr x).
  { intros x' ->. destruct (ix_sorted x); [auto|]. split; [|reflexivity]. cbn. intros e He. destruct HE as (_ & Hq & _). eapply Permutation_in; [symmetry; apply Hq|exact He]. }
  destruct (ix_ptr x) eqn:P, (ix_entries x); try done; apply cost_ret; cbn [snd]; now apply H.
Qed.
Lemma cost_index_get x pos : cost 0 (fun e => In e (ix_entries x)) (index_get x pos).
Proof. unfold index_get. destruct (nth_error _ _) as [e|] eqn:En; [|done]. apply cost_ret. eapply nth_error_In; eauto. Qed.
Lemma cost_insert x o l i : cost 0 any (index_insert x o l i).
Proof.
  unfold index_insert. free. destruct (ix_ptr x); try done. eapply cost_free; [destruct (_ <=? _)%N; [apply cost_alloc|now apply cost_ret]|].
  intros b _. destruct (negb b); [done|]. cbv zeta. destruct (_ <? _)%N; done.
Qed.
Lemma cost_insert_index fl o l i x : cost 0 any (store_insert_index fl o l i x).
Proof. unfold store_insert_index. eapply cost_free; [apply cost_insert|]. intros [[pos|] x'] _; done. Qed.
Lemma cost_init x n : cost 0 any (index_init x n).
Proof. unfold index_init. free. free. destruct a0; done. Qed.
Lemma cost_cleanup x : cost 0 any (index_cleanup x).
Proof. unfold index_cleanup. destruct (ix_ptr x); done. Qed.

Lemma cost_both A B (J K : A -> Prop) m : cost B J m -> gives K m -> cost B (fun a => J a /\ K a) m.
Proof. intros C G w Hw. specialize (C w Hw). specialize (G w). destruct (m w) as [[a| | |] w']; auto. destruct C. auto. Qed.

(** ** Local stores *)
Definition flagged (e : entry) : Prop := N.land (en_flags e) INDEX_FLAG_VALIDATED <> 0%N.
Definition checked (x : index) : Prop := forall e, In e (ix_entries x) -> flagged e.
Lemma gives_insert_checked o l i x : checked x -> gives (fun r => checked (snd r)) (store_insert_index INDEX_FLAG_VALIDATED o l i x).
Proof.
  intros H. unfold store_insert_index. eapply (gives_bind _ _ (fun r => match fst r with
     | Some pos => pos = length (ix_entries x) /\ ix_entries (snd r) = ix_entries x ++ [mkEntry o l 0 i] | None => snd r = x end)).
  - unfold index_insert. skip_bind. destruct (ix_ptr x); [apply gives_abort| |apply gives_ub]. skip_bind. destruct (negb _); [now apply gives_ret|].
    destruct (_ <? _)%N; [apply gives_ub|]. apply gives_ret. split; reflexivity.
  - intros [[pos|] x'] Hx; cbn [fst snd] in Hx; apply gives_ret; [|cbn; now subst]. destruct Hx as (-> & Hx). cbn [snd]. unfold index_or_flags. rewrite Hx.
    rewrite nth_error_app2, Nat.sub_diag by lia. cbn [nth_error]. intros e. cbn [ix_entries].
    assert (U : forall (l0 : list entry) a b, upd_nth (length l0) b (l0 ++ [a]) = l0 ++ [b]) by (induction l0; intros; cbn; [reflexivity|now rewrite IHl0]).
    rewrite U. rewrite in_app_iff. intros [X|[<-|[]]]; [now apply H|]. unfold flagged. cbn. discriminate.
Qed.
Lemma gives_scan_checked ls : gives (fun r => ls_ino (snd r) = ls_ino ls /\ (fst r = true -> checked (ls_idx (snd r)))) (store_scan E ls).
Proof.
  unfold store_scan. skip_bind. skip_bind. destruct a0 as [size|]; [|apply gives_ret; cbn; auto; split; [reflexivity|discriminate]].
  eapply (gives_bind _ _ (fun r => fst r = true -> checked (snd r))).
  - unfold index_init. skip_bind. skip_bind. destruct a1; apply gives_ret; [intros _ e []|discriminate].
  - intros [ok x] Hx. cbn [fst snd] in Hx. destruct ok; cbn [negb]; [|apply gives_ret; split; [reflexivity|discriminate]].
    eapply gives_bind; [apply (gives_scan_fd _ checked gives_insert_checked), Hx; reflexivity|]. intros [ok' x'] Hx'. apply gives_ret. split; [reflexivity|auto].
Qed.
Lemma cost_scan ls : cost (N.to_nat (Z (ls_ino ls)) + 1) (fun r => ls_ino (snd r) = ls_ino ls /\ (fst r = true -> checked (ls_idx (snd r)))) (store_scan E ls).
Proof.
  eapply cost_le; [apply cost_both; [|apply gives_scan_checked]|apply Nat.le_refl|intros a (_ & X); exact X].
  unfold store_scan. free. eapply cost_free; [apply cost_fd_size|]. intros [size|] _; [|apply (cost_any _ _ _ _ any); done].
  eapply cost_free; [apply cost_init|]. intros [ok x] _. destruct (negb ok); [apply (cost_any _ _ _ _ any); done|].
  eapply cost_seq; [apply (cost_scan_fd Z kc _ (cost_insert_index _))| |apply Nat.eq_le_incl, Nat.add_0_r]. intros [ok' x'] _. now apply (cost_ret Z kc _ any).
Qed.
Lemma store_scan_reads ls w ls' w' : inv w -> store_scan E ls w = (Ok (true, ls'), w') -> w_io w <> [].
Proof.
  intros Hw H C. unfold store_scan, bind at 1, trace in H. unfold bind at 1, fd_size in H.
  assert (G : forall n0, ('(ok, x) <- index_init (ls_idx ls) n0 ;; if negb (ok : bool) then ret (false, set_idx ls x) else
      '(ok, x) <- chunker_scan_fd (store_insert_index INDEX_FLAG_VALIDATED) E (ls_ino ls) (ls_params ls) x ;; ret (ok, set_idx ls x)) (add_trace (TScan (ls_ino ls)) w) = (Ok (true, ls'), w') -> False).
  { intros n0 X. unfold bind at 1 in X. set (wa := add_trace _ w) in X.
    assert (Ci := cost_init (ls_idx ls) n0 wa Hw). destruct (index_init (ls_idx ls) n0 wa) as [[[ok x]| | |] w1] eqn:Ei; try discriminate. destruct Ci as (_ & I1 & _ & _ & L). cbn in L. rewrite C in L.
    destruct ok; cbn [negb] in X; [|discriminate]. unfold bind at 1 in X. destruct (chunker_scan_fd _ _ _ _ _ w1) as [[[ok' x']| | |] w2] eqn:Es; try discriminate.
    apply (scan_fd_reads Z kc) in Es; [|exact I1]. destruct (w_io w1); [congruence|cbn in L; lia]. }
  destruct (e_kind E (ls_ino ls)); [eapply G, H|eapply G, H|discriminate].
Qed.

Lemma cost_chunk_id d : cost (length d + 1) any (chunk_calculate_id E d). Proof. apply cost_sha. Qed.

Definition local_post (ls : lstore) (out : bytes) (r : option N * bytes * lstore) : Prop := length (snd (fst r)) = length out /\ ls_ino (snd r) = ls_ino ls.
(** A store that was scanned is not scanned again. *)
Lemma cost_local_checked fuel ls id out : checked (ls_idx ls) -> cost (length out) (local_post ls out) (local_get_loop E (S fuel) ls id out).
Proof.
  intros Hc. cbn [local_get_loop]. eapply cost_free; [apply cost_query|]. intros [r x] (Hx & _). cbn [snd] in Hx. destruct r as [pos|]; [|done].
  eapply cost_free; [apply cost_index_get|]. intros e He. destruct (blen out <? en_len e)%N eqn:El; [done|].
  eapply (cost_seq _ _ _ _ (N.to_nat (en_len e)) 0); [apply cost_pread| |unfold blen in El; lia]. intros [ok data] Hd. cbn [snd] in Hd.
  assert (Ho : length (overlay data out) = length out) by (apply length_overlay; unfold blen in El; lia).
  destruct (negb ok); [done|]. assert (Hf : flagged e) by (apply Hc, Hx, He). unfold flagged in Hf. apply N.eqb_neq in Hf. rewrite Hf. cbn [negb]. done.
Qed.
Definition local_cost (ino out : nat) : nat := out + (out + 1) + (N.to_nat (Z ino) + 1) + out.
Lemma bind_ext A C (m : M A) (k1 k2 : A -> M C) w : (forall a w', m w = (Ok a, w') -> k1 a w' = k2 a w') -> bind m k1 w = bind m k2 w.
Proof. intros H. unfold bind. destruct (m w) as [[a| | |] w']; auto. Qed.
Lemma cost_io A B (K : A -> Prop) m w a w' : cost B K m -> inv w -> m w = (Ok a, w') -> inv w' /\ length (w_io w') <= length (w_io w).
Proof. intros C Hw H. specialize (C w Hw). rewrite H in C. destruct C as (_ & I & _ & _ & L). auto. Qed.
Lemma local_nil f1 f2 ls id out w : inv w -> w_io w = [] -> local_get_loop E (S f1) ls id out w = local_get_loop E (S f2) ls id out w.
Proof.
  intros Hw Hn. assert (Hl : length (w_io w) <= 0) by (rewrite Hn; apply Nat.le_refl). clear Hn. cbn [local_get_loop].
  apply bind_ext. intros [r x] w1 H1. destruct (cost_io _ _ _ _ _ _ _ (cost_query _ _) Hw H1) as (I1 & L1). destruct r as [pos|]; [|reflexivity].
  apply bind_ext. intros e w2 H2. destruct (cost_io _ _ _ _ _ _ _ (cost_index_get _ _) I1 H2) as (I2 & L2). destruct (_ <? _)%N; [reflexivity|].
  apply bind_ext. intros [ok d] w3 H3. destruct (cost_io _ _ _ _ _ _ _ (cost_pread Z kc _ _ _) I2 H3) as (I3 & L3). destruct (negb ok); [reflexivity|]. destruct (negb _); [reflexivity|].
  apply bind_ext. intros h w4 H4. destruct (cost_io _ _ _ _ _ _ _ (cost_chunk_id _) I3 H4) as (I4 & L4). destruct (beq id h); [reflexivity|].
  apply bind_ext. intros x' w5 H5. destruct (cost_io _ _ _ _ _ _ _ (cost_cleanup _) I4 H5) as (I5 & L5).
  apply bind_ext. intros [ok' ls'] w6 H6. destruct ok'; [|reflexivity]. apply store_scan_reads in H6; [|exact I5]. destruct (w_io w5); [congruence|cbn in L5; lia].
Qed.
Lemma cost_local_loop fuel ls id out : cost (local_cost (ls_ino ls) (length out)) (local_post ls out) (local_get_loop E (S (S fuel)) ls id out).
Proof.
  remember (S fuel) as fuel1 eqn:Hf1. cbn [local_get_loop]. unfold local_cost. eapply cost_free; [apply cost_query|]. intros [r x] (Hx & _). cbn [snd] in Hx. destruct r as [pos|]; [|done].
  eapply cost_free; [apply cost_index_get|]. intros e He. destruct (blen out <? en_len e)%N eqn:El; [done|].
  eapply (cost_seq _ _ _ _ (N.to_nat (en_len e)) (length out + 1 + (N.to_nat (Z (ls_ino ls)) + 1) + length out)); [apply cost_pread| |unfold blen in El; lia]. intros [ok data] Hd. cbn [snd] in Hd.
  assert (Ho : length (overlay data out) = length out) by (apply length_overlay; unfold blen in El; lia).
  destruct (negb ok); [done|]. destruct (negb _); [done|].
  eapply (cost_seq _ _ _ _ (length out + 1) (N.to_nat (Z (ls_ino ls)) + 1 + length out)); [|intros h _|lia].
  { eapply (cost_le _ _ _ _ _ any any); [apply cost_chunk_id|rewrite firstn_length; lia|auto]. }
  destruct (beq id h); [done|]. eapply cost_free; [apply cost_cleanup|]. intros x' _. eapply (cost_bind _ _ _ _ (N.to_nat (Z (ls_ino ls)) + 1)); [apply (cost_scan (set_idx (set_idx ls x) x'))|]. intros [ok' ls'] (A & B). cbn [fst snd set_idx ls_ino] in A, B.
  destruct ok'; cbn [negb]; [|done]. rewrite Hf1. eapply cost_le; [apply cost_local_checked; auto|lia|]. intros a (P1 & P2). split; congruence.
Qed.
Lemma cost_local ls id out : cost (local_cost (ls_ino ls) (length out)) (local_post ls out) (store_local_get_chunk E ls id out).
Proof.
  intros w Hw. unfold store_local_get_chunk. destruct (w_io w) as [|e ev] eqn:Ew; cbn [length].
  - rewrite (local_nil 0 1 ls id out w Hw Ew). apply cost_local_loop, Hw.
  - apply cost_local_loop, Hw.
Qed.

Lemma cost_sideload ls ip : cost (match e_open E ip with Some i => 104 + N.to_nat (Z i) * 40 | None => 0 end) (fun r => ls_ino (snd r) = ls_ino ls) (store_sideload_index E ls ip).
Proof.
  unfold store_sideload_index. destruct (e_open E ip) as [ino|]; [|done]. eapply cost_bind; [apply cost_load_header|]. intros [[cp n]|] Hn; [|done].
  destruct (negb _); [done|]. eapply cost_free; [apply cost_init|]. intros [ok x] _. destruct (negb ok); [done|].
  eapply (cost_seq _ _ _ _ (N.to_nat n * (40 + 0)) 0); [apply (cost_iterate Z kc _ any); [intros; apply cost_insert_index|exact Logic.I]| |].
  - intros [ok' x'] _. destruct (negb ok'); [|done]. eapply cost_free; [apply cost_cleanup|]. intros x2 _. done.
  - rewrite Nat.add_0_r, Nat.add_0_r. apply Nat.mul_le_mono_r. lia.
Qed.
Definition path_size (p : bytes) : nat := match e_open E p with Some i => N.to_nat (Z i) | None => 0 end.
Definition new_local_cost (path : bytes) (ip : option bytes) : nat := 104 + match ip with Some p => path_size p * 40 | None => 0 end + (path_size path + 1).
Lemma cost_local_new path ip cp : cost (new_local_cost path ip) (fun r => match r with Some ls => N.to_nat (Z (ls_ino ls)) <= path_size path | None => True end) (store_local_new E path ip cp).
Proof.
  unfold store_local_new. free. destruct (negb a); [done|]. unfold new_local_cost. destruct (e_open E path) as [ino|] eqn:Eo; [|done].
  assert (Hp : path_size path = N.to_nat (Z ino)) by (unfold path_size; now rewrite Eo).
  eapply (cost_bind _ _ _ _ _ _ (fun r => ls_ino (snd r) = ino)).
  - destruct ip as [ip|]; [|done]. eapply cost_le; [apply cost_sideload| |intros r X; exact X]. unfold path_size. destruct (e_open E ip); lia.
  - intros [ld ls] H. cbn [snd] in H. destruct ld; [apply cost_le0, cost_ret; rewrite Hp, H; lia|]. eapply (cost_seq _ _ _ _ _ 0); [apply cost_scan| |rewrite H, Hp; lia].
    intros [ok ls'] (A & _). cbn [snd] in A. apply cost_ret. destruct ok; [|exact Logic.I]. rewrite A, H, Hp. lia.
Qed.

(** ** HTTP stores *)
Definition hreq (n : nat) (r : req) : Prop := length (rq_out r) = n /\ rq_written r <= n.
Lemma cost_absorb n r d : hreq n r -> cost 0 (fun x => hreq n (snd x)) (decode_buffer_absorb r d).
Proof.
  intros H. unfold decode_buffer_absorb. cbv zeta. destruct (_ && _); [done|]. eapply cost_free; [destruct (_ <? _)%N; [apply cost_alloc|now apply cost_ret]|].
  intros a _. destruct (negb a); [done|]. destruct (_ <? _)%N at 1; [done|]. destruct (rq_cipher r); [destruct (encrypt_do _ _) as [d' c']|]; done.
Qed.
Lemma cost_handle n r d : hreq n r -> cost 0 (fun x => hreq n (snd x)) (handle_data E r d).
Proof.
  intros (H1 & H2).
  assert (G : forall c dp, e_zstep E (rq_zhist r) d (length (rq_out r) - rq_written r) = Some (c, dp) ->
     hreq n (mkReq STREAMING (overlay_at (rq_written r) dp (rq_out r)) (rq_written r + length dp) (rq_dec r) (rq_cap r) ((d, length (rq_out r) - rq_written r) :: rq_zhist r) (rq_cipher r))).
  { intros c dp Hz. destruct HE as (_ & _ & _ & HZ). apply HZ in Hz as (_ & Hz). unfold hreq. cbn. rewrite length_overlay_at by lia. split; [exact H1|lia]. }
  unfold handle_data. destruct (rq_state r); [| |done].
  - destruct (_ <? _)%N; [done|]. destruct (negb _); [done|]. cbv zeta. destruct (e_zstep _ _ _ _) as [[c dp]|] eqn:Ez; [|done]. apply cost_ret. cbn [snd]. eauto.
  - cbv zeta. destruct (e_zstep _ _ _ _) as [[c dp]|] eqn:Ez; [|done]. apply cost_ret. cbn [snd]. eauto.
Qed.
Lemma cost_data_cb n code d r : hreq n r -> cost 0 (fun x => hreq n (snd x)) (store_http_data_cb E code d r).
Proof.
  intros H. unfold store_http_data_cb. cbv zeta. destruct (match rq_state r with STARTED => _ | _ => false end); [done|].
  assert (G : cost 0 (fun x => hreq n (snd x))
     (if negb (blen (rq_dec r) =? 0)%N || (match rq_cipher r with Some _ => true | None => false end) then
        '(ok, r) <- decode_buffer_absorb r d ;;
        if negb (ok : bool) then ret (0%N, rq_set_state FAILED r) else
        '(n, r) <- handle_data E r (rq_dec r) ;;
        match n with
        | None => ret (0%N, rq_set_state FAILED r)
        | Some n => ret (blen d, rq_set_dec (skipn n (rq_dec r)) r)
        end
      else
        '(n, r) <- handle_data E r d ;;
        match n with
        | None => ret (0%N, rq_set_state FAILED r)
        | Some n =>
            if Nat.ltb n (length d) then
              '(ok, r) <- decode_buffer_absorb r (skipn n d) ;;
              if negb (ok : bool) then ret (0%N, rq_set_state FAILED r)
              else ret (blen d, r)
            else ret (blen d, r)
        end)).
  { destruct (_ || _).
    - eapply cost_free; [apply cost_absorb, H|]. intros [ok r1] H1. destruct (negb ok); [done|]. eapply cost_free; [apply cost_handle, H1|]. intros [[k|] r2] H2; done.
    - eapply cost_free; [apply cost_handle, H|]. intros [[k|] r1] H1; [|done]. destruct (Nat.ltb _ _); [|done].
      eapply cost_free; [apply cost_absorb, H1|]. intros [ok r2] H2. destruct (negb ok); done. }
  destruct (rq_state r); [exact G|exact G|done].
Qed.
Lemma cost_deliver n code fin : forall segs r, hreq n r -> cost 0 (fun x => hreq n (snd x)) (curl_deliver E code segs fin r).
Proof.
  induction segs as [|s segs IH]; intros r H; cbn [curl_deliver]; [done|]. eapply cost_free; [apply cost_data_cb, H|]. intros [k r1] H1. destruct (_ =? _)%N; [now apply IH|done].
Qed.
Lemma cost_perform n url r : hreq n r -> cost 0 (fun x => hreq n (snd x)) (curl_easy_perform E url r).
Proof.
  intros H w Hw. unfold curl_easy_perform. set (p := e_server E url (w_nperf w)).
  assert (C : cost 0 (fun x => hreq n (snd x)) ('(c, r1) <- curl_deliver E (p_code p) (p_segs p) (p_end p) r ;; ret (c, p_code p, r1))).
  { eapply cost_free; [apply cost_deliver, H|]. intros [c r1] H1. done. }
  specialize (C (add_trace (TPerform url) (set_nperf (S (w_nperf w)) w)) Hw). exact C.
Qed.
Lemma cost_retried n url : forall rem us r, 0 < rem -> hreq n r -> cost 0 (fun x => hreq n (snd x)) (retried_curl_easy_perform E url rem us r).
Proof.
  induction rem as [|rem IH]; intros us r Hr H; [lia|]. cbn [retried_curl_easy_perform]. eapply cost_free; [apply cost_perform, H|]. intros [[c code] r1] H1.
  destruct (negb _); [done|]. free. cbv zeta. destruct rem as [|rem]; [done|]. apply IH; [lia|exact H1].
Qed.
Lemma cost_http hs id out : cost (length out + 1) (fun r => length (snd (fst r)) = length out) (store_http_get_chunk E hs id out).
Proof.
  unfold store_http_get_chunk. eapply cost_free.
  { unfold set_url. cbv zeta. destruct (_ <? _)%N; [apply (cost_ub _ _ _ any)|]. free. now apply (cost_ret _ _ _ any). }
  intros [url|] _; [|done]. eapply cost_free; [destruct (hs_key hs); [apply cost_alloc|now apply cost_ret]|]. intros a _. destruct (negb a); [done|]. cbv zeta.
  eapply cost_free; [apply (cost_retried (length out)); [unfold CONNECT_TRIES; lia|split; [reflexivity|cbn; lia]]|]. intros [[c code] r] (H1 & H2). cbn [snd] in H1, H2.
  assert (D : forall v h, cost (length out + 1) (fun x : option N * bytes * hstore => length (snd (fst x)) = length out) (ret (v, rq_out r, h))) by (intros; done).
  destruct (curl_is_transient_error c); [destruct (increase_error_counter _); apply D|].
  assert (G : cost (length out + 1) (fun x : option N * bytes * hstore => length (snd (fst x)) = length out)
     (match code with
            | None => ret (None, rq_out r, hs_after hs r (hs_err hs))
            | Some code =>
                if (code =? 404)%N || (code =? 410)%N then ret (Some 0%N, rq_out r, hs_after hs r (hs_err hs))
                else if (400 <=? code)%N then
                  let '(err, rv) := increase_error_counter (hs_err hs) in
                  ret (rv, rq_out r, hs_after hs r err)
                else
                  match rq_state r with
                  | STARTED | FAILED => ret (Some 0%N, rq_out r, hs_after hs r (hs_err hs))
                  | STREAMING =>
                      actual <- chunk_calculate_id E (firstn (rq_written r) (rq_out r)) ;;
                      if negb (beq actual id) then ret (Some 0%N, rq_out r, hs_after hs r 0)
                      else ret (Some (N.of_nat (rq_written r)), rq_out r, hs_after hs r 0)
                  end
            end)).
  { destruct code as [code|]; [|apply D]. destruct (_ || _); [apply D|]. destruct (_ <=? _)%N; [destruct (increase_error_counter _); apply D|]. destruct (rq_state r); try apply D.
    eapply (cost_seq _ _ _ _ (length out + 1) 0 _ any); [|intros h _|lia].
    - eapply (cost_le _ _ _ _ _ any any); [apply cost_chunk_id|rewrite firstn_length; lia|auto].
    - destruct (negb _); done. }
  destruct c; first [apply G|apply D].
Qed.

Lemma cost_slurp p : cost (path_size p) any (slurp_file E p).
Proof.
  unfold slurp_file, path_size. destruct (e_open E p) as [ino|]; [|done]. eapply cost_free; [apply cost_fd_size|]. intros [size|] Hs; [|done]. specialize (Hs size eq_refl).
  free. destruct (negb a); [done|]. eapply (cost_seq _ _ _ _ (N.to_nat size) 0); [apply cost_readall| |lia]. intros [ok d] _. done.
Qed.
Lemma cost_keyspec spec : cost (path_size (skipn 5 spec)) any (encrypt_parse_keyspec E spec).
Proof.
  unfold encrypt_parse_keyspec. eapply (cost_seq _ _ _ _ (path_size (skipn 5 spec)) 0 _ any); [|intros r _; done|lia].
  unfold encrypt_parse_keyspec_buf, keyspec_src. destruct (startswith spec (bs "key:")); [done|]. destruct (startswith spec (bs "env:")); [destruct (e_getenv E _); done|].
  destruct (startswith spec (bs "file:")); [|done]. eapply (cost_seq _ _ _ _ (path_size (skipn 5 spec)) 0); [apply cost_slurp| |lia]. intros [t|] _; done.
Qed.
Lemma cost_params : forall fuel args, length args < fuel -> exists B, forall key, cost B any (store_handle_params E fuel args key).
Proof.
  induction fuel as [|fuel IH]; intros args Hf; [lia|]. cbn [store_handle_params]. destruct args as [|c0 args0]; [exists 0; intros; done|]. set (args := c0 :: args0) in *.
  cbv zeta. destruct (strchr args 44) as [n|] eqn:En.
  - destruct (IH (skipn (S n) args)) as (B & HB); [rewrite skipn_length; unfold args in *; cbn [length] in *; lia|].
    exists (path_size (skipn 5 (skipn 8 (firstn n args))) + B). intros key. destruct (startswith _ _); [|done].
    eapply cost_bind; [apply cost_keyspec|]. intros [k|] _; [|done]. free. destruct (negb a); [done|]. apply HB.
  - exists (path_size (skipn 5 (skipn 8 args))). intros key. destruct (startswith _ _); [|done].
    eapply (cost_seq _ _ _ _ _ 0); [apply cost_keyspec| |rewrite Nat.add_0_r; apply Nat.le_refl]. intros [k|] _; [|done]. free. destruct (negb a); done.
Qed.
Lemma cost_http_new url : exists B, cost B any (store_http_new E url).
Proof.
  unfold store_http_new. destruct (negb _); [exists 0; done|]. cbv zeta.
  assert (H : exists B, cost B any (match strrchr url 35 with Some p => store_handle_params E (S (length (skipn (S p) url))) (skipn (S p) url) None | None => ret (Some None) end)).
  { destruct (strrchr url 35) as [p|]; [|exists 0; done]. destruct (cost_params (S (length (skipn (S p) url))) (skipn (S p) url) ltac:(lia)) as (B & HB). exists B. apply HB. }
  destruct H as (B & HB). exists B. free. destruct (negb a); [done|]. free. destruct (negb a0); [done|]. eapply (cost_seq _ _ _ _ B 0); [exact HB| |lia].
  intros [key|] _; [|done]. free. destruct (negb a1); done.
Qed.

(** ** The target *)
Lemma cost_add t l o i : cost 0 (fun t' => t_ino t' = t_ino t) (target_add_chunk E t l o i).
Proof.
  unfold target_add_chunk. destruct (negb _); [done|]. eapply cost_free; [apply cost_query|]. intros [[pos|] x] _; [done|]. eapply cost_free; [apply cost_insert|]. intros [r y] _. done.
Qed.
Lemma cost_check t tmp l o i : N.to_nat l <= length tmp -> cost (length tmp + (length tmp + 1)) (fun r => length (snd (fst r)) = length tmp /\ t_ino (snd r) = t_ino t) (target_check_chunk E t tmp l o i).
Proof.
  intros Hl. unfold target_check_chunk. eapply (cost_seq _ _ _ _ (N.to_nat l) (length tmp + 1)); [apply cost_pread| |lia]. intros [ok d] Hd. cbn [snd] in Hd.
  assert (Ho : length (overlay d tmp) = length tmp) by (apply length_overlay; lia). cbv zeta. destruct (negb ok); [done|].
  eapply (cost_seq _ _ _ _ (length tmp + 1) 0 _ any); [|intros h _|lia].
  { eapply (cost_le _ _ _ _ _ any any); [apply cost_chunk_id|rewrite firstn_length; lia|auto]. }
  destruct (negb _); [done|]. eapply cost_free; [apply cost_add|]. intros t' Ht. done.
Qed.
Lemma cost_target_get t id out : cost (length out) (fun r => length (snd (fst r)) = length out /\ t_ino (snd r) = t_ino t) (target_get_chunk E t id out).
Proof.
  unfold target_get_chunk. destruct (negb _); [done|]. eapply cost_free; [apply cost_query|]. intros [[pos|] x] _; [|done]. cbv zeta.
  eapply cost_free; [apply cost_index_get|]. intros e _. destruct (blen out <? en_len e)%N eqn:El; [done|].
  eapply (cost_seq _ _ _ _ (N.to_nat (en_len e)) 0); [apply cost_pread| |unfold blen in El; lia]. intros [ok d] Hd. cbn [snd] in Hd.
  assert (Ho : length (overlay d out) = length out) by (apply length_overlay; unfold blen in El; lia). destruct (negb ok); done.
Qed.
Lemma cost_target_write t d l o i : (OFF_LIMIT + blen d <= Z (t_ino t))%N -> cost (length d) (fun r => t_ino (snd r) = t_ino t) (target_write E t d l o i).
Proof.
  intros HZ. unfold target_write. destruct (blen d <? l)%N eqn:El; [done|]. free. eapply (cost_seq _ _ _ _ (length d) 0 _ any); [|intros ok _|lia].
  - eapply (cost_le _ _ _ _ _ any any); [apply cost_pwrite|rewrite firstn_length; lia|auto]. unfold blen in *. rewrite firstn_length. lia.
  - destruct (negb ok); [done|]. eapply cost_free; [apply cost_add|]. intros t' Ht. done.
Qed.
Lemma cost_target_as t n : cost 0 (fun r => t_ino (snd r) = t_ino t) (target_as_store t n).
Proof. unfold target_as_store. destruct (t_queryable t); [done|]. eapply cost_free; [apply cost_init|]. intros [ok x] _. destruct (negb ok); done. Qed.

(** ** The chain *)
Variable (Smax : nat).
Definition small (ss : substore) : Prop := match ss_store ss with SLocal ls => N.to_nat (Z (ls_ino ls)) <= Smax | _ => True end.
Definition get_cost (out : nat) : nat := out + (out + 1) + (Smax + 1) + out.
Lemma cost_store_get s t id out a : small (mkSub s a) -> cost (get_cost (length out)) (fun r => length (snd (fst (fst r))) = length out /\ (forall b, small (mkSub (snd (fst r)) b)) /\ t_ino (snd r) = t_ino t) (store_get_chunk E s t id out).
Proof.
  unfold small, get_cost. cbn [ss_store]. intros Hs. destruct s; cbn [store_get_chunk].
  - eapply (cost_seq _ _ _ _ _ 0); [apply cost_local| |unfold local_cost; lia]. intros [[r o] ls'] (A & B). cbn [fst snd] in A, B. apply cost_ret. cbn. rewrite B. auto.
  - eapply (cost_seq _ _ _ _ _ 0); [apply cost_http| |lia]. intros [[r o] hs'] A. cbn [fst snd] in A. apply cost_ret. cbn. auto.
  - eapply (cost_seq _ _ _ _ _ 0); [apply cost_target_get| |lia]. intros [[r o] t'] (A & B). cbn [fst snd] in A, B. apply cost_ret. cbn. auto.
Qed.
Lemma cost_chain id : forall l i t out, Forall small l -> cost (length l * get_cost (length out))
  (fun r => length (snd (fst (fst r))) = length out /\ Forall small (snd (fst r)) /\ length (snd (fst r)) = length l /\ t_ino (snd r) = t_ino t) (chain_loop E i l t id out).
Proof.
  induction l as [|ss l IH]; intros i t out Hl; cbn [chain_loop]; [apply cost_ret; cbn; auto|]. inversion Hl as [|? ? H1 H2]; subst. cbn [length Nat.mul]. destruct (negb _).
  - eapply (cost_seq _ _ _ _ _ 0); [apply IH, H2| |lia]. intros [[[r o] l'] t'] (A & B & C & D). cbn [fst snd] in *. apply cost_ret. cbn. auto.
  - free. eapply cost_bind; [apply (cost_store_get _ _ _ _ (ss_active ss)); destruct ss; exact H1|]. intros [[[r o] s] t'] (A & B & C). cbn [fst snd] in *. free.
    assert (G : forall b, cost (length l * get_cost (length out)) (fun r => length (snd (fst (fst r))) = length out /\ Forall small (snd (fst r)) /\ length (snd (fst r)) = S (length l) /\ t_ino (snd r) = t_ino t)
       ('(r, out, l', t) <- chain_loop E (S i) l t' id o;; ret (r, out, mkSub s b :: l', t))).
    { intros b. rewrite <- A. eapply (cost_seq _ _ _ _ _ 0); [apply IH, H2| |lia]. intros [[[r2 o2] l2] t2] (A2 & B2 & C2 & D2). cbn [fst snd] in *. apply cost_ret. cbn. repeat split; auto; congruence. }
    destruct r as [n|]; [destruct (0 <? n)%N|]; auto. apply cost_le0, cost_ret. cbn. auto.
Qed.
End Live.
