(** Lemmas on the paths given to the repository commands. *)
From Verif Require Import Base Str RepoPathModel RepoPathSpec.
Open Scope Z_scope.

Lemma split_ne s : split s <> [].
Proof. destruct s as [|c t]; cbn; [discriminate|]. destruct (c =? 47); [discriminate|]. destruct (split t); discriminate. Qed.
Lemma split_app a b : split (a ++ 47 :: b) = split a ++ split b.
Proof.
  induction a as [|c a IH]; [reflexivity|]. cbn [app split]. rewrite IH. destruct (c =? 47); [reflexivity|]. pose proof (split_ne a) as N. destruct (split a); [now destruct N|]. reflexivity.
Qed.
Lemma parts_app a b : parts (a ++ 47 :: b) = parts a ++ parts b.
Proof. unfold parts. rewrite split_app. apply filter_app. Qed.
Lemma parts_slash b : parts (47 :: b) = parts b. Proof. exact (parts_app [] b). Qed.
Lemma double_in a b : hasDouble (a ++ 47 :: 47 :: b) = true.
Proof. induction a as [|c a IH]; [reflexivity|]. cbn [app hasDouble]. destruct a as [|d a]; cbn [app] in *; rewrite IH; apply orb_true_r. Qed.
Lemma ends_app s : endsSlash (s ++ [47]) = true. Proof. unfold endsSlash. now rewrite rev_app_distr. Qed.
Lemma ends_inv s : endsSlash s = true -> exists a, s = a ++ [47].
Proof. unfold endsSlash. destruct (rev s) as [|c r] eqn:E; [discriminate|]. intros H%Z.eqb_eq. unfold SL in H. subst. exists (rev r). apply (f_equal (@rev _)) in E. rewrite rev_involutive in E. now rewrite E. Qed.
Lemma path_app a : strPath (a ++ [47]) = match a with [] => [47] | _ => a end.
Proof.
  unfold strPath. rewrite rev_app_distr. cbn [rev app backToSlash]. change (47 =? SL) with true. cbv iota. cbn [length tl]. rewrite rev_length. destruct a as [|c a]; [reflexivity|]. cbn [length Nat.leb]. now rewrite rev_involutive.
Qed.
Lemma begins_inv a p : strBeginsWith a p = true -> exists t, a = p ++ t.
Proof. unfold strBeginsWith. rewrite strEqb_eq. intros H. exists (skipn (length p) a). rewrite <- H at 1. symmetry. apply firstn_skipn. Qed.
Lemma begins_app p t : strBeginsWith (p ++ t) p = true.
Proof. unfold strBeginsWith. rewrite firstn_app, Nat.sub_diag, firstn_all, firstn_O, app_nil_r. apply strEqb_refl. Qed.
(** Without its last slash. *)
Definition cut (s : str) : str := if endsSlash s then strPath s else s.
Lemma cut_parts s : parts (cut s) = parts s.
Proof.
  unfold cut. destruct (endsSlash s) eqn:E; [|reflexivity]. apply ends_inv in E as (a & ->). rewrite path_app, parts_app. cbn. rewrite app_nil_r. now destruct a.
Qed.
Lemma cut_prefix s : exists t, s = cut s ++ t.
Proof. unfold cut. destruct (endsSlash s) eqn:E; [|exists []; now rewrite app_nil_r]. apply ends_inv in E as (a & ->). rewrite path_app. destruct a; [exists []|exists [47]]; reflexivity. Qed.
Lemma valid_cut repo path : hasDouble path = false -> repoPathIsValid repo path =
  if strBeginsWith (cut path) [SL] then
    if strEqb (cut path) repo then Ok [] else if negb (strEqb repo [SL]) && negb (strBeginsWith (cut path) (repo ++ [SL])) then Err EOther
    else let start := if strEqb repo [SL] then 1%nat else (length repo + 1)%nat in if (length (cut path) <? start)%nat then UB else Ok (skipn start (cut path))
  else Ok (cut path).
Proof. intros D. unfold repoPathIsValid. rewrite D. reflexivity. Qed.
(** Every outcome. *)
Lemma valid_cases repo path : match repoPathIsValid repo path with
  | Ok rel => hasDouble path = false /\ (
      (strBeginsWith path [47] = true /\ ((cut path = repo /\ rel = []) \/ (repo = [47] /\ cut path = 47 :: rel) \/ cut path = repo ++ 47 :: rel)) \/
      (strBeginsWith path [47] = false /\ rel = cut path))
  | Err e => e = EOther | UB => False end.
Proof.
  destruct (hasDouble path) eqn:D; [unfold repoPathIsValid; now rewrite D|]. rewrite valid_cut by assumption.
  assert (B : strBeginsWith (cut path) [SL] = strBeginsWith path [47]).
  { unfold cut. destruct (endsSlash path) eqn:E; [|reflexivity]. apply ends_inv in E as (a & ->). rewrite path_app. destruct a as [|c a]; reflexivity. }
  rewrite B. destruct (strBeginsWith path [47]) eqn:BP.
  - destruct (strEqb (cut path) repo) eqn:E1; [apply strEqb_eq in E1; auto 8|]. destruct (strEqb repo [SL]) eqn:E2.
    + apply strEqb_eq in E2. cbn [negb andb]. cbv zeta. apply begins_inv in B as (t & C). rewrite C. cbn. split; [reflexivity|]. left. split; [reflexivity|]. right. left. now split.
    + cbn [negb andb]. destruct (strBeginsWith (cut path) (repo ++ [SL])) eqn:E3; cbn [negb]; [|reflexivity]. apply begins_inv in E3 as (t & C). rewrite C. cbv zeta.
      replace (length repo + 1)%nat with (length (repo ++ [SL])) by (rewrite app_length; reflexivity).
      replace (length ((repo ++ [SL]) ++ t) <? length (repo ++ [SL]))%nat with false by (symmetry; apply Nat.ltb_ge; rewrite (app_length (repo ++ [SL]) t); lia).
      rewrite skipn_app, skipn_all, Nat.sub_diag. cbn [skipn app]. split; [reflexivity|]. left. split; [reflexivity|]. right. right. now rewrite <- app_assoc.
  - split; [reflexivity|]. right. now split.
Qed.
Lemma rel_relative repo path rel : repoPathIsValid repo path = Ok rel -> strBeginsWith rel [47] = false.
Proof.
  intros H. pose proof (valid_cases repo path) as C. rewrite H in C. destruct C as (D & C). destruct (strBeginsWith rel [47]) eqn:B; [|reflexivity]. exfalso. apply begins_inv in B as (t & ->). destruct (cut_prefix path) as (u & U).
  destruct C as [(_ & [(_ & N)|[(_ & C)|C]])|(N & C)].
  - discriminate N.
  - rewrite U, C in D. cbn [app] in D. pose proof (double_in [] (t ++ u)) as X. cbn [app] in X. congruence.
  - rewrite U, C in D. rewrite <- app_assoc in D. cbn [app] in D. rewrite double_in in D. discriminate.
  - rewrite U, <- C in N. discriminate N.
Qed.
Lemma walk_more l : forall at_, ~ In [46; 46] l -> exists m, fold_left step l at_ = at_ ++ m.
Proof.
  induction l as [|x l IH]; intros at_ N; [exists []; now rewrite app_nil_r|]. change (fold_left step (x :: l) at_) with (fold_left step l (step at_ x)).
  assert (N2 : ~ In [46; 46] l) by (intros H; apply N; now right). unfold step. fold step. destruct (strEqb x [46]); [now apply IH|].
  destruct (strEqb x [46; 46]) eqn:E; [apply strEqb_eq in E; subst; destruct N; now left|]. destruct (IH (at_ ++ [x]) N2) as (m & M). exists (x :: m). rewrite <- app_assoc in M. exact M.
Qed.
Lemma double_iff s : hasDouble s = true <-> exists a b, s = a ++ 47 :: 47 :: b.
Proof.
  split; [|intros (a & b & ->); apply double_in]. induction s as [|c s IH]; [discriminate|]. cbn [hasDouble]. destruct s as [|d s]; [discriminate|]. intros [H|H]%orb_true_iff.
  - apply andb_true_iff in H as (H1 & H2). apply Z.eqb_eq in H1, H2. unfold SL in *. subst. now exists [], s.
  - destruct (IH H) as (a & b & ->). now exists (c :: a), b.
Qed.
Lemma storage_parts repo rel : parts (storageRel repo rel) = parts repo ++ parts rel.
Proof. unfold storageRel. destruct (strEqb repo [SL]) eqn:E; [apply strEqb_eq in E as ->; apply parts_slash|apply parts_app]. Qed.
