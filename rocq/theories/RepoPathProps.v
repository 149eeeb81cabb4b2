(** C89: paths given to the repository commands. *)
From Coq Require Import String List.
From Verif Require Import Base Str RegNameModel RepoPathModel RepoPathSpec RepoPathProof.
Open Scope list_scope. Open Scope Z_scope.

(** The path that is used is relative and leads, from the repository, where the path given leads: an absolute one as it is, others from the repository. *)
Theorem C89_place (repo path rel : str) : repoPathIsValid repo path = Ok rel ->
  ~ double path /\ ~ absolute rel /\ (absolute path -> parts (storageRel repo rel) = parts path) /\ (~ absolute path -> parts (storageRel repo rel) = parts repo ++ parts path).
Proof.
  intros H. pose proof (rel_relative _ _ _ H) as R. pose proof (valid_cases repo path) as C. rewrite H in C. destruct C as (D & C). rewrite storage_parts.
  split; [intros X; apply double_iff in X; congruence|]. split; [intros (t & ->); discriminate|].
  destruct C as [(B & C)|(B & ->)].
  - apply begins_inv in B as (t & B). split; [intros _|intros N; destruct N; now exists t]. rewrite <- (cut_parts path). destruct C as [(-> & ->)|[(-> & ->)| ->]]; [now rewrite app_nil_r|now rewrite parts_slash|now rewrite parts_app].
  - split; [intros (t & ->); discriminate|]. intros _. now rewrite cut_parts.
Qed.
Print Assumptions C89_place.
(** A path is refused just if it has two slashes in a row or is absolute and not that of the repository or of something below it. *)
Theorem C89_refused (repo path : str) : absolute repo -> (forall a, repo = a ++ [47] -> a = []) ->
  (repoPathIsValid repo path = Err EOther <->
   double path \/ (absolute path /\ path <> repo /\ repo <> [47] /\ ~ exists rel, path = repo ++ 47 :: rel)) /\ repoPathIsValid repo path <> UB.
Proof.
  intros (t0 & R0) NS.  pose proof (valid_cases repo path) as C. split; [|now destruct (repoPathIsValid repo path)]. split.
  - intros H. destruct (hasDouble path) eqn:D; [left; now apply double_iff|]. right. rewrite valid_cut in H by assumption.
    destruct (strBeginsWith (cut path) [SL]) eqn:B; [|discriminate]. apply begins_inv in B as (t & B). destruct (cut_prefix path) as (u & U). split; [exists (t ++ u); now rewrite U, B|].
    destruct (strEqb (cut path) repo) eqn:E1; [discriminate|]. destruct (strEqb repo [SL]) eqn:E2; [cbn [negb andb] in H; cbv zeta in H; destruct (_ <? _)%nat; discriminate|]. cbn [negb andb] in H.
    destruct (strBeginsWith (cut path) (repo ++ [SL])) eqn:E3; [cbn [negb] in H; cbv zeta in H; destruct (_ <? _)%nat; discriminate|].
    assert (N1 : cut path <> repo) by (intros X; rewrite X, strEqb_refl in E1; discriminate). assert (N2 : repo <> [47]) by (intros X; rewrite X in E2; discriminate).
    assert (N3 : forall rel, cut path <> repo ++ 47 :: rel).
    { intros rel X. rewrite X in E3. change (repo ++ 47 :: rel) with (repo ++ [SL] ++ rel) in E3. rewrite app_assoc, begins_app in E3. discriminate. }
    assert (N4 : ~ exists rel, path = repo ++ 47 :: rel).
    { intros (rel & X). unfold cut in N1, N3. destruct (endsSlash path) eqn:E; [|now apply (N3 rel)]. apply ends_inv in E as (a & E). rewrite E, path_app in N1, N3. rewrite E in X.
      destruct a as [|c a]; [rewrite R0 in X; destruct t0; discriminate X|]. destruct rel as [|y rel] using rev_ind; [apply app_inj_tail in X as (X & _); now apply N1|]. clear IHrel.
      change (repo ++ 47 :: rel ++ [y]) with (repo ++ (47 :: rel) ++ [y]) in X. rewrite app_assoc in X. apply app_inj_tail in X as (X & _). now apply (N3 rel). }
    split; [|now split].
    intros X. rewrite X in *. unfold cut in N1, N3. destruct (endsSlash repo) eqn:E; [|now apply N1]. apply ends_inv in E as (a & E).
    rewrite (NS a E) in E. now apply N2.
  - intros [D|(A & N1 & N3 & N4)].
    + apply double_iff in D. unfold repoPathIsValid. now rewrite D.
    + destruct (repoPathIsValid repo path) as [rel|e|]; [|now rewrite C|contradiction]. exfalso. destruct C as (D & [(B & C)|(B & ->)]); [|destruct A as (t & ->); discriminate].
      unfold cut in C. destruct (endsSlash path) eqn:E.
      * apply ends_inv in E as (a & E). rewrite E, path_app in C. destruct a as [|c a].
        -- destruct C as [(C & _)|[(C & _)|C]]; [now apply N3|now apply N3|]. rewrite R0 in C. destruct t0; discriminate C.
        -- destruct C as [(C & _)|[(C & _)|C]]; [apply N4; exists []; now rewrite E, C|now apply N3|]. apply N4. exists (rel ++ [47]). rewrite E, C. now rewrite <- app_assoc.
      * destruct C as [(C & _)|[(C & _)|C]]; [now apply N1|now apply N3|]. apply N4. now exists rel.
Qed.
Print Assumptions C89_refused.
(** A slash at the end makes no difference. *)
Theorem C89_slash (repo path : str) : path <> [] -> ~ double (path ++ [47]) -> repoPathIsValid repo (path ++ [47]) = repoPathIsValid repo path.
Proof.
  intros N D. assert (D1 : hasDouble (path ++ [47]) = false) by (destruct (hasDouble (path ++ [47])) eqn:X; [apply double_iff in X; contradiction|reflexivity]).
  assert (D2 : hasDouble path = false). { destruct (hasDouble path) eqn:X; [|reflexivity]. apply double_iff in X as (a & b & X). destruct D. exists a, (b ++ [47]). rewrite X. now rewrite <- app_assoc. }
  rewrite !valid_cut by assumption. assert (C : cut (path ++ [47]) = cut path); [|now rewrite C].
  unfold cut. rewrite ends_app, path_app. destruct (endsSlash path) eqn:E; [|now destruct path]. apply ends_inv in E as (a & E). destruct D. exists a, []. rewrite E. now rewrite <- app_assoc.
Qed.
Print Assumptions C89_slash.
(** If no name in it is two dots then the path leads into the repository. *)
Theorem C89_inside_partial (repo path rel : str) : repoPathIsValid repo path = Ok rel -> ~ In [46; 46] (parts rel) -> exists below, walk (parts (storageRel repo rel)) = walk (parts repo) ++ below.
Proof. intros _ N. rewrite storage_parts. unfold walk. rewrite fold_left_app. now apply walk_more. Qed.
Print Assumptions C89_inside_partial.
(** With two dots it may lead out of it, be it absolute or not. *)
Theorem C89_inside_refuted (absolutely : bool) :
  ~ (forall repo path rel : str, (absolute path <-> absolutely = true) -> repoPathIsValid repo path = Ok rel -> exists below, walk (parts (storageRel repo rel)) = walk (parts repo) ++ below).
Proof.
  intros H. destruct absolutely.
  - destruct (H (txt "/a/r") (txt "/a/r/../b") (txt "../b")) as (below & B); [split; [reflexivity|intros _; eexists; reflexivity]|reflexivity|discriminate B].
  - destruct (H (txt "/a/r") (txt "../b") (txt "../b")) as (below & B); [split; [intros (t & X); discriminate X|discriminate]|reflexivity|discriminate B].
Qed.
Print Assumptions C89_inside_refuted.
(** Paths that are used and refused. *)
Example C89_nontrivial :
  repoPathIsValid (txt "/var/repo") (txt "/var/repo/backup/db/") = Ok (txt "backup/db") /\ repoPathIsValid (txt "/var/repo") (txt "archive/db") = Ok (txt "archive/db") /\ repoPathIsValid (txt "/var/repo") (txt "/var/repo/") = Ok [] /\
  repoPathIsValid (txt "/") (txt "/backup") = Ok (txt "backup") /\ repoPathIsValid (txt "/") (txt "/") = Ok [] /\ repoPathIsValid (txt "/var/repo") (txt "/var/repo2/x") = Err EOther /\ repoPathIsValid (txt "/var/repo") (txt "a//b") = Err EOther /\
  repoPathIsValid (txt "/var/repo") (txt "/") = Err EOther /\ parts (storageRel (txt "/var/repo") (txt "backup/db")) = [txt "var"; txt "repo"; txt "backup"; txt "db"].
Proof. repeat split. Qed.
