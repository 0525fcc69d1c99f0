(** Property C82: an edit costs only the chunks around it.  Statements only. *)
From Verif Require Import Base SpecBasic SpecEnv Utils Chunker Caibx MainProg SpecChunker SpecCaibx SpecMain SpecRun SpecProgress SpecDelta SpecEdit PfEdit Toy Ex2 Ex4 Ex6 Ex21.
Local Open Scope N_scope.

(** ** C82: what is requested for an edited image *)
(** The index describes the new image, the store [k] is the old one and is scanned: every later store is asked at most
    once per chunk of the edited part, hence at most once per [least_chunk] of its bytes, wherever the data behind the
    edit has moved to. *)
Theorem C82_edit E argv w iino p n D a x y b old new k arg path ino j tr : sane E argv w -> hash_reliable E w -> error_free (w_io w) -> ~ In false (w_alloc w) ->
  e_open E (cmd_index argv) = Some iino -> valid_index (w_files w iino) p n -> describes E (w_files w iino) (N.to_nat n) (chunks p D new) -> edit p D a x y b old new ->
  nth_error (cmd_stores argv) k = Some arg -> classify_arg (cmd_target argv) arg = ArgLocal path None -> e_open E path = Some ino -> w_files w ino = old ->
  disc_of p D -> p_max p <= BUF_SIZE -> run_trace w (snd (main E argv w)) tr -> (k < j)%nat ->
  total (ask_ev j) tr <= N.of_nat (length (chunks p D x)) /\ total (ask_ev j) tr * least_chunk p <= blen x.
Proof. exact (fun A B C F G H I J => edit_scan E argv w iino p n D a x y b old new A B C F G H I J k arg path ino j tr). Qed.
Print Assumptions C82_edit.
(** The same when the old image comes with the index that was made for it. *)
Theorem C82_edit_index E argv w iino p n D a x y b old new k arg path ip ino jino q m rest j tr : sane E argv w -> hash_reliable E w -> error_free (w_io w) -> ~ In false (w_alloc w) ->
  e_open E (cmd_index argv) = Some iino -> valid_index (w_files w iino) p n -> describes E (w_files w iino) (N.to_nat n) (chunks p D new) -> edit p D a x y b old new ->
  nth_error (cmd_stores argv) k = Some arg -> classify_arg (cmd_target argv) arg = ArgLocal path (Some ip) -> e_open E path = Some ino ->
  e_open E ip = Some jino -> e_kind E jino <> KOther -> w_files w ino = old ++ rest -> valid_index (w_files w jino) q m ->
  p_min q = p_min p -> p_avg q = p_avg p -> p_max q = p_max p -> describes E (w_files w jino) (N.to_nat m) (chunks p D old) ->
  p_max p <= BUF_SIZE -> run_trace w (snd (main E argv w)) tr -> (k < j)%nat ->
  total (ask_ev j) tr <= N.of_nat (length (chunks p D x)) /\ total (ask_ev j) tr * least_chunk p <= blen x.
Proof. exact (fun A B C F G H I J => edit_index E argv w iino p n D a x y b old new A B C F G H I J k arg path ip ino jino q m rest j tr). Qed.
Print Assumptions C82_edit_index.
(** One byte of an image changed: the store after the old image is asked for one chunk. *)
Example C82_met : sane toy0 csn_su (w21 []) /\ hash_reliable toy0 (w21 []) /\ error_free (w_io (w21 [])) /\ ~ In false (w_alloc (w21 [])) /\ e_open toy0 (cmd_index csn_su) = Some 105%nat /\
  valid_index (w_files (w21 []) 105%nat) p_ex 3 /\ describes toy0 (w_files (w21 []) 105%nat) (N.to_nat 3) (chunks p_ex 45 img21) /\ edit p_ex 45 c1 c4 c2 c3 data_ex img21 /\
  nth_error (cmd_stores csn_su) 0 = Some (bs "s") /\ classify_arg (cmd_target csn_su) (bs "s") = ArgLocal (bs "s") None /\ e_open toy0 (bs "s") = Some 115%nat /\
  w_files (w21 []) 115%nat = data_ex /\ disc_of p_ex 45 /\ p_max p_ex <= BUF_SIZE.
Proof. exact met21. Qed.
Example C82_run : let r := main toy0 csn_su (w21 []) in (fst r, w_files (snd r) 116%nat, asked_of 1 (w_trace (snd r)), asked_of 0 (w_trace (snd r))) = (Ok 0, img21, [toyH c4], [toyH c3; toyH c4]).
Proof. exact run21. Qed.
Example C82_index_met : sane toy0 csn_sj (w21 more) /\ hash_reliable toy0 (w21 more) /\ error_free (w_io (w21 more)) /\ ~ In false (w_alloc (w21 more)) /\ e_open toy0 (cmd_index csn_sj) = Some 105%nat /\
  valid_index (w_files (w21 more) 105%nat) p_ex 3 /\ describes toy0 (w_files (w21 more) 105%nat) (N.to_nat 3) (chunks p_ex 45 img21) /\ edit p_ex 45 c1 c4 c2 c3 data_ex img21 /\
  nth_error (cmd_stores csn_sj) 0 = Some (bs "s:j") /\ classify_arg (cmd_target csn_sj) (bs "s:j") = ArgLocal (bs "s") (Some (bs "j")) /\ e_open toy0 (bs "s") = Some 115%nat /\
  e_open toy0 (bs "j") = Some 106%nat /\ e_kind toy0 106 <> KOther /\ w_files (w21 more) 115%nat = data_ex ++ more /\ valid_index (w_files (w21 more) 106%nat) p_ex 3 /\
  describes toy0 (w_files (w21 more) 106%nat) (N.to_nat 3) (chunks p_ex 45 data_ex) /\ p_max p_ex <= BUF_SIZE.
Proof. exact met21j. Qed.
Example C82_index_run : let r := main toy0 csn_sj (w21 more) in (fst r, w_files (snd r) 116%nat, asked_of 1 (w_trace (snd r)), asked_of 0 (w_trace (snd r))) = (Ok 0, img21, [toyH c4], [toyH c3; toyH c4]).
Proof. exact run21j. Qed.
