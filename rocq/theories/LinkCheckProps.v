From Verif Require Import Base Str ManifestModel LinkCheckModel LinkCheckSpec LinkCheckProof LinkCheckProof2 LinkCheckProof3.
Open Scope Z_scope.

(** A relative path is followed part by part from the base; "..", "." and a slash at the end are understood, going above "/" is refused. *)
Theorem C57_absolute base rel (trailing : bool) : base <> [] -> rel <> [] -> Forall good base -> Forall good rel ->
  (forall l c, walk base rel = Some l -> In c l -> strBeginsWith c [46;46] = false) ->
  strPathAbsolute (joinSlash rel ++ (if trailing then [47] else [])) (pathOf base) =
    match walk base rel with None => Err EAssert | Some [] => Ok [47] | Some l => Ok (pathOf l) end.
Proof. apply absolute. Qed.
Print Assumptions C57_absolute.

(** An absolute path is taken as it is, whatever the base; with "//" or "/.." in it it is refused. *)
Theorem C57_absolute_as_is s base : strPathAbsolute (47 :: s) base = Ok (47 :: s) \/ strPathAbsolute (47 :: s) base = Err EAssert.
Proof.
  unfold strPathAbsolute. change (strBeginsWith (47 :: s) [47]) with true. cbn [bind]. destruct (_ || _); auto.
Qed.
Print Assumptions C57_absolute_as_is.
Theorem C57_absolute_refused s base : strPathAbsolute (47 :: s) base = Err EAssert <->
  exists a r, 47 :: s = a ++ [47;47] ++ r \/ 47 :: s = a ++ [47;46;46] ++ r.
Proof.
  unfold strPathAbsolute. change (strBeginsWith (47 :: s) [47]) with true. cbn [bind].
  destruct (containsSub [47;46;46] (47 :: s)) eqn:E1; [|destruct (containsSub [47;47] (47 :: s)) eqn:E2]; cbn [orb].
  - split; [intros _|reflexivity]. apply contains_iff in E1 as (a & r & E). eauto.
  - split; [intros _|reflexivity]. apply contains_iff in E2 as (a & r & E). eauto.
  - split; [discriminate|]. intros (a & r & [E|E]); exfalso.
    + rewrite (proj2 (contains_iff [47;47] (47 :: s))) in E2; [discriminate|eauto].
    + rewrite (proj2 (contains_iff [47;46;46] (47 :: s))) in E1; [discriminate|eauto].
Qed.
Print Assumptions C57_absolute_refused.

(** The destination of a link in directory [dir] of the data directory [b] is relative to that directory. *)
Theorem C57_target_path ts tb b t dir n rel : manifestTargetFind ts pgData = Ok tb -> mtPath tb = pathOf b -> b <> [] -> rel <> [] ->
  mtName t = pgData ++ 47 :: joinSlash (dir ++ [n]) -> mtPath t = joinSlash rel -> Forall good (b ++ dir ++ [n] ++ rel) ->
  (forall l c, walk b (dir ++ rel) = Some l -> In c l -> strBeginsWith c [46;46] = false) ->
  manifestTargetPath ts t = match walk b (dir ++ rel) with None => Err EAssert | Some [] => Ok [47] | Some l => Ok (pathOf l) end.
Proof. apply target_path. Qed.
Print Assumptions C57_target_path.

(** The check accepts exactly the lists of destinations described by [checked]. *)
Theorem C57_exact ts tb base ds : manifestTargetFind ts pgData = Ok tb -> manifestTargetPath ts tb = Ok base -> isDests ts ds ->
  (manifestLinkCheck ts = Ok tt <-> checked base ds).
Proof. apply check_exact. Qed.
Print Assumptions C57_exact.

(** No accepted link leads into the data directory. *)
Theorem C57_not_in_pgdata ts t tb b d : manifestLinkCheck ts = Ok tt -> In t ts -> mtIsPath t = false ->
  manifestTargetFind ts pgData = Ok tb -> manifestTargetPath ts tb = Ok (pathOf b) -> manifestTargetPath ts t = Ok (pathOf d) ->
  Forall good b -> Forall good d -> ~ exists r, d = b ++ r.
Proof. intros H Ht Et Htb Hb Hd Gb Gd. rewrite <- inDir_parts by assumption. eapply check_base; eauto. Qed.
Print Assumptions C57_not_in_pgdata.

(** Of two accepted links to directories neither leads into the directory of the other. *)
Theorem C57_disjoint ts l1 t l2 u l3 c d : manifestLinkCheck ts = Ok tt -> ts = l1 ++ t :: l2 ++ u :: l3 ->
  mtIsPath t = false -> mtIsPath u = false -> mtFile t = None -> mtFile u = None ->
  manifestTargetPath ts t = Ok (pathOf c) -> manifestTargetPath ts u = Ok (pathOf d) -> Forall good c -> Forall good d ->
  ~ (exists r, d = c ++ r) /\ ~ (exists r, c = d ++ r).
Proof.
  intros H E Et Eu Ft Fu Pt Pu Gc Gd. rewrite <- !inDir_parts by assumption. destruct (check_pair ts l1 t l2 u l3 _ _ H E Et Eu Pt Pu) as [A _]. auto.
Qed.
Print Assumptions C57_disjoint.

(** A link to a directory and any other link do not have the same directory. *)
Theorem C57_not_same ts l1 t l2 u l3 p q : manifestLinkCheck ts = Ok tt -> ts = l1 ++ t :: l2 ++ u :: l3 ->
  mtIsPath t = false -> mtIsPath u = false -> mtFile t = None \/ mtFile u = None ->
  manifestTargetPath ts t = Ok p -> manifestTargetPath ts u = Ok q -> p <> q.
Proof. intros H E Et Eu F Pt Pu. destruct (check_pair ts l1 t l2 u l3 _ _ H E Et Eu Pt Pu) as [_ A]. auto. Qed.
Print Assumptions C57_not_same.

(** * Where the check is weaker than its description "symlinks do not point to the same file, directory, or subdirectory of another link" *)
Definition exBase : mtarget := mkMtarget pgData true [47;100;47;112] None 0 None.
Definition exLink (n : Z) (path : str) (file : option str) : mtarget := mkMtarget (pgData ++ [47; n]) false path file 0 None.

(** Three links a -> /x/1, b -> /x/2, c -> /x/2: two to the same file are accepted *)
Theorem C57_same_file_refuted : exists t u, let ts := [exBase; exLink 97 [47;120] (Some [49]); t; u] in
  mtIsPath t = false /\ mtIsPath u = false /\ mtPath t = mtPath u /\ mtFile t = Some [50] /\ mtFile u = Some [50] /\ manifestLinkCheck ts = Ok tt.
Proof. exists (exLink 98 [47;120] (Some [50])), (exLink 99 [47;120] (Some [50])). vm_compute. auto 10. Qed.
Print Assumptions C57_same_file_refuted.
(** A link to the directory /x and one to the file /x/s/1 are accepted *)
Theorem C57_file_in_directory_refuted :
  manifestLinkCheck [exBase; exLink 97 [47;120] None; exLink 98 [47;120;47;115] (Some [49])] = Ok tt.
Proof. vm_compute. reflexivity. Qed.
Print Assumptions C57_file_in_directory_refuted.
(** A link to the directory /d is accepted although the data directory /d/p is in it *)
Theorem C57_contains_pgdata_refuted : manifestLinkCheck [exBase; exLink 97 [47;100] None] = Ok tt.
Proof. vm_compute. reflexivity. Qed.
Print Assumptions C57_contains_pgdata_refuted.
(** Absolute destinations are not normalised: /x/../d/p/y is accepted *)
Theorem C57_not_normal_refuted : manifestLinkCheck [exBase; exLink 97 [47;120;47;46;46;47;100;47;112;47;121] None] = Ok tt.
Proof. vm_compute. reflexivity. Qed.
Print Assumptions C57_not_normal_refuted.

(** Three links to directories and two to files of one directory are accepted; ../w is resolved to /d/w *)
Example C57_nontrivial :
  let ts := [exBase; exLink 97 [47;120] None; exLink 98 [46;46;47;119] None; exLink 99 [47;102] (Some [49]); exLink 101 [47;102] (Some [50]);
             exLink 102 [47;120;121] None] in
  manifestLinkCheck ts = Ok tt /\ isDests ts [([47;120], None); ([47;100;47;119], None); ([47;102], Some [49]); ([47;102], Some [50]); ([47;120;121], None)] /\
  manifestLinkCheck (ts ++ [exLink 103 [47;120;47;121] None]) = Err EOther /\
  walk [[100];[112]] [[46;46];[119]] = Some [[100];[119]].
Proof. cbv zeta. split; [vm_compute; reflexivity|]. split; [unfold isDests; cbn [filter negb mtIsPath exBase exLink]; repeat constructor|]. split; vm_compute; reflexivity. Qed.
