(** Only the last component of the name under which a program was called matters (C98). *)
From Verif Require Import Base Lib Utils Sha Caibx Chain MainProg Patchdd Tool Log SpecBasic SpecEnv SpecMain SpecRun SpecLog PfUtils PfBasic PfHttp2 PfLog.
Local Open Scope N_scope.

Lemma strip_none l : match l with c :: _ => c <> 47 | [] => True end -> strip_trailing_slashes l = l.
Proof. destruct l as [|c l]; intros H; [reflexivity|]. cbn [strip_trailing_slashes]. apply N.eqb_neq in H. now rewrite H. Qed.
Lemma rev_head (name dir : bytes) : name <> [] -> ~ In 47 name -> match rev (dir ++ name) with c :: _ => c <> 47 | [] => True end.
Proof.
  intros Hn Hs. rewrite rev_app_distr. destruct (rev name) as [|c r] eqn:Er; [apply (f_equal (@rev _)) in Er; rewrite rev_involutive in Er; cbn in Er; congruence|].
  cbn [app]. intros ->. apply Hs. apply in_rev. rewrite Er. now left.
Qed.
Lemma basename_spec path name : is_basename path name -> name <> [] -> basename path = name.
Proof.
  intros (Hs & Hp) Hn. assert (Hne : path <> []) by (destruct Hp as [->|(dir & ->)]; [exact Hn|now destruct dir]).
  assert (St : rev (strip_trailing_slashes (rev path)) = path).
  { rewrite strip_none, rev_involutive; [reflexivity|]. destruct Hp as [->|(dir & ->)]; [exact (rev_head name [] Hn Hs)|]. rewrite app_assoc. exact (rev_head name (dir ++ [47]) Hn Hs). }
  unfold basename. destruct path as [|x path']; [congruence|]. rewrite St. set (path := x :: path') in *. pose proof (strrchr_spec path 47) as H. destruct (strrchr path 47) as [p|].
  - destruct H as (H1 & H2). apply (basename_unique path); [split; [exact H2|right; exists (firstn p path); exact H1]|split; [exact Hs|exact Hp]].
  - apply (basename_unique path); [split; [exact H|now left]|split; [exact Hs|exact Hp]].
Qed.
Lemma called E path name args w : is_basename path name -> name <> [] -> main E (path :: args) w = main E (name :: args) w.
Proof.
  intros Hb Hn. assert (Hb' : is_basename name name) by (destruct Hb as (H & _); split; [exact H|now left]).
  unfold main. cbn [nth]. rewrite (basename_spec _ _ Hb Hn), (basename_spec _ _ Hb' Hn).
  assert (C1 : csn E (path :: args) = csn E (name :: args)) by (destruct args as [|a [|t [|s r]]]; reflexivity).
  assert (C2 : casync E (path :: args) = casync E (name :: args)).
  { destruct args as [|a [|t r]]; [reflexivity|reflexivity|]. unfold casync. cbn [length Nat.ltb Nat.leb Nat.sub nth skipn]. reflexivity. }
  now rewrite C1, C2.
Qed.
Lemma called_csn E path w index target stores : is_basename path (bs "csn") -> let argv := path :: index :: target :: stores in
  cmd_index argv = index /\ cmd_target argv = target /\ cmd_stores argv = stores /\ main E argv w = main E (bs "csn" :: index :: target :: stores) w.
Proof.
  intros Hb. cbv zeta. assert (X : is_csn (path :: index :: target :: stores) = true) by (unfold is_csn; cbn [nth]; rewrite (basename_spec _ _ Hb ltac:(discriminate)); reflexivity).
  unfold cmd_index, cmd_target, cmd_stores. rewrite X. cbn [nth skipn]. split; [reflexivity|]. split; [reflexivity|]. split; [reflexivity|]. apply called; [exact Hb|discriminate].
Qed.
Lemma called_other E path name args w : is_basename path name -> name <> [] -> name <> bs "csn" -> name <> bs "casync" -> main E (path :: args) w = (Ok 1, w).
Proof.
  intros Hb Hn H1 H2. unfold main. cbn [nth]. rewrite (basename_spec _ _ Hb Hn). apply beq_neq in H1, H2. rewrite H1, H2. reflexivity.
Qed.
Lemma called_tools E p q args w tw : patchdd_main E (p :: args) w = patchdd_main E (q :: args) w /\ tool_main (p :: args) tw = tool_main (q :: args) tw.
Proof. split; reflexivity. Qed.
Lemma has_basename path : exists name, is_basename path name.
Proof. exists (log_file path). apply log_file_spec. Qed.
Lemma called_ex : is_basename (bs "/usr/bin/csn") (bs "csn") /\ is_basename (bs "csn/../casync") (bs "casync") /\ is_basename (bs "/opt/csn/csn-2") (bs "csn-2").
Proof.
  split; [split; [cbn; intros H; repeat (destruct H as [H|H]; [discriminate|]); exact H|right; exists (bs "/usr/bin"); reflexivity]|].
  split; [split; [cbn; intros H; repeat (destruct H as [H|H]; [discriminate|]); exact H|right; exists (bs "csn/.."); reflexivity]|].
  split; [cbn; intros H; repeat (destruct H as [H|H]; [discriminate|]); exact H|right; exists (bs "/opt/csn"); reflexivity].
Qed.
