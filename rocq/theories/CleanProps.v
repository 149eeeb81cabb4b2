(** C58: preparing the target directories of a restore *)
From Verif Require Import Base Str ManifestPackModel ManifestModel LinkCheckModel CleanModel CleanSpec CleanProof CleanProof2 CleanProof3 CleanProof4 CleanProof5 CleanProof6 CleanProof7 CleanProof8.
Open Scope Z_scope.

(** The files that are kept in the data directory are backup.manifest and, only if recovery settings are to be preserved, those of the version. *)
Theorem C58_kept_files o n : In n (ignoreList o) <->
  n = sManifest \/ coPreserve o = true /\
  (if coGuc o then n = sAutoConf \/ n = sRecoverySignal \/ n = sStandbySignal else n = sRecoveryConf).
Proof.
  unfold ignoreList. rewrite strLstSortAsc_in. destruct (coPreserve o), (coGuc o); cbn [In]; intuition congruence.
Qed.
Print Assumptions C58_kept_files.

Section Any.
(** For every limit of links, every choice of calls that fail and of what is gone then, and whoever runs it *)
Variables (maxLinks : nat) (fail : nat -> bool) (part : nat -> path -> bool) (ev : env) (ru rg : option str).

(** Cleaning a directory leaves exactly what is to stay, with the owner and mode of the manifest, and ends if no call fails. *)
Theorem C58_dir_exact fuel m ig name r base s s' o : wf (cFs s) -> cleanDir fail part ev ru rg fuel m ig true name r base s = (s', o) ->
  ((forall n, fail n = false) -> (forall q e, get (cFs s) q = Some e -> (length q < length r + fuel)%nat) -> fuel <> O -> o = Ok tt) /\
  (o = Ok tt -> forall rel, rel <> [] ->
     ((exists e, get (cFs s') (r ++ rel) = Some e) <-> keep (cFs s) m ig name r base rel) /\
     (forall e, get (cFs s') (r ++ rel) = Some e ->
        (exists d, get (cFs s) (r ++ rel) = Some d /\ same d e) /\
        (attrOk ev ru rg m (nameAt name rel) e \/ (base = true /\ exists n, rel = [n] /\ In n ig /\ get (cFs s) (r ++ rel) = Some e)))).
Proof.
  intros W H. split.
  - intros NF L F. eapply cleanDir_ok; [exact NF|apply wf_tree; exact W|apply W|exact L|exact F|exact H].
  - intros -> rel N. pose proof H as G. apply cleanDir_goal in G; [|apply wf_tree; exact W|apply W]. destruct G as (_ & _ & _ & G).
    specialize (G eq_refl (wf_closed _ _ W) rel N). rewrite G. split.
    + rewrite <- (want_keep ev ru rg). destruct (want _ _ _ _ _ _ _ _ _ _) as [e|]; split; try congruence; eauto. intros [e [=]].
    + intros e He. now apply want_attr in He.
Qed.

(** Whatever fails, what is to stay stays, nothing outside of the directory is touched and nothing is added. *)
Theorem C58_dir_safe fuel m ig name r base s s' o : wf (cFs s) -> cleanDir fail part ev ru rg fuel m ig true name r base s = (s', o) ->
  (forall rel, keep (cFs s) m ig name r base rel -> exists e, get (cFs s') (r ++ rel) = Some e) /\
  (forall q, (forall n rest, q <> r ++ n :: rest) -> get (cFs s') q = get (cFs s) q) /\
  (forall q e, get (cFs s') q = Some e -> exists d, get (cFs s) q = Some d /\ same d e).
Proof.
  intros W H. apply cleanDir_goal in H; [|apply wf_tree; exact W|apply W]. destruct H as ((S1 & _ & O) & AT & K & _). split; [|split].
  - intros rel Hk. apply (want_keep ev ru rg) in Hk. apply K in Hk. destruct (get (cFs s') (r ++ rel)); [eauto|congruence].
  - intros q Hq. destruct (below r q) eqn:B; [|now apply O]. apply below_iff in B as [[|n rest] ->]; [now rewrite app_nil_r|]. now elim (Hq n rest).
  - exact S1.
Qed.

(** Without delta (and force) nothing that existed is removed or replaced, whatever happens. *)
Theorem C58_nodelta_keeps fuel m o b s s' x : wf (cFs s) -> baseOk m b -> coDelta o = false ->
  restoreCleanBuild maxLinks fail part ev ru rg fuel m o s = (s', x) ->
  forall q e, get (cFs s) q = Some e -> exists e', get (cFs s') q = Some e' /\ same e e'.
Proof. apply nodelta_keeps. Qed.

(** Without delta a target with anything in it, other than the files that are kept in the data directory, is an error before anything is changed. *)
Theorem C58_nodelta_error fuel m o t p r e n y s s' x : wf (cFs s) -> coDelta o = false -> In t (cmTargets m) -> mtFile t = None -> targetPathOf m o t = Ok p ->
  info maxLinks (cFs s) true p = Ok (Some (r, e)) -> get (cFs s) (r ++ [n]) = Some y ->
  ~ (mtName t = pgData /\ isFile y = true /\ In n (ignoreList o)) ->
  restoreCleanBuild maxLinks fail part ev ru rg fuel m o s = (s', x) -> s' = s /\ forall a, x <> Ok a.
Proof. intros [W _]. now apply nodelta_error. Qed.

(** A target of another user (unless root restores) or without rwx for the owner is an error before anything is changed. *)
Theorem C58_owner_error fuel m o t p r e s s' x : In t (cmTargets m) -> targetPathOf m o t = Ok p -> info maxLinks (cFs s) true p = Ok (Some (r, e)) ->
  (evUser ev <> 0 /\ evUser ev <> eUser e) \/ Z.land (eMode e) 448 <> 448 ->
  restoreCleanBuild maxLinks fail part ev ru rg fuel m o s = (s', x) -> s' = s /\ forall a, x <> Ok a.
Proof. apply owner_error. Qed.

(** No file is ever created. *)
Theorem C58_no_file fuel m o s s' x : restoreCleanBuild maxLinks fail part ev ru rg fuel m o s = (s', x) ->
  forall q e, get (cFs s') q = Some e -> isFile e = true -> exists d, get (cFs s) q = Some d /\ same d e.
Proof. apply no_file. Qed.

(** pg_control is removed before anything else is changed, and does not come back. *)
Theorem C58_control fuel m o s s' x b c : manifestTargetFind (cmTargets m) pgData = Ok b ->
  storageExists maxLinks (cFs s) (controlPath (mtPath b)) = Ok true -> real maxLinks (cFs s) false (controlPath (mtPath b)) = Ok c ->
  restoreCleanBuild maxLinks fail part ev ru rg fuel m o s = (s', x) ->
  cFs s' = cFs s \/ (forall e, get (cFs s') c = Some e -> isFile e = false).
Proof. intros B X C H. eapply control_gone; eassumption. Qed.

(** After success every path and link of the manifest exists. *)
Theorem C58_complete fuel m o s s' m' b : wf (cFs s) -> manifestTargetFind (cmTargets m) pgData = Ok b ->
  restoreCleanBuild maxLinks fail part ev ru rg fuel m o s = (s', Ok m') ->
  (forall mp, In mp (cmPaths m) -> mpName mp <> pgTblspc -> existsAt maxLinks (cFs s') (pgPathOf (mtPath b) (mpName mp))) /\
  (forall k, In k (cmLinks m) -> existsAt maxLinks (cFs s') (pgPathOf (mtPath b) (mlName k))).
Proof. intros W B H. eapply success_exists; eassumption. Qed.

(** After success the files still to be restored are those of the manifest without tablespace_map and, if recovery settings are to be
    preserved, without postgresql.auto.conf. *)
Theorem C58_files_left fuel m o s s' m' : restoreCleanBuild maxLinks fail part ev ru rg fuel m o s = (s', Ok m') ->
  (cmTargets m', cmPaths m', cmLinks m') = (cmTargets m, cmPaths m, cmLinks m) /\
  forall f, In f (cmFiles m') <-> In f (cmFiles m) /\ mpName f <> slashed pgData sTablespaceMap /\
    ~ (coPreserve o = true /\ coGuc o = true /\ mpName f = slashed pgData sAutoConf).
Proof.
  intros H. assert (m' = skipFiles o m) as ->.
  { revert H. unfold restoreCleanBuild, mbind, reads, ret. repeat (match goal with [ |- context [match ?x with _ => _ end] ] => destruct x end; try discriminate).
    congruence. }
  unfold skipFiles. cbv zeta. destruct (coGuc o), (coPreserve o); cbn [andb cmTargets cmPaths cmLinks cmFiles]; (split; [reflexivity|]); intros f; rewrite ?filter_In;
    repeat match goal with [ |- context [strEqb ?a ?b] ] => destruct (strEqb_spec a b) end; cbn [negb]; intuition congruence.
Qed.

(** If no path of a target has links in it, everything outside of the targets, other than pg_control, is as before; the targets themselves only get
    another owner and mode. *)
Theorem C58_outside fuel m o b s s' x : wf (cFs s) -> manifestTargetFind (cmTargets m) pgData = Ok b ->
  (forall t p, In t (cmTargets m) -> targetPathOf m o t = Ok p -> exists cs, plainAt (cFs s) p cs) ->
  restoreCleanBuild maxLinks fail part ev ru rg fuel m o s = (s', x) ->
  forall q e, get (cFs s) q = Some e -> ~ inTarget m o q -> real maxLinks (cFs s) false (controlPath (mtPath b)) <> Ok q ->
  (~ isTarget m o q -> get (cFs s') q = Some e) /\ exists e', get (cFs s') q = Some e' /\ same e e'.
Proof.
  intros W B PL H q e G N1 N2. destruct (outside _ _ _ _ _ _ _ _ _ _ _ _ _ W B PL H) as [A1 A2]. split.
  - intros N3. apply A1; [split; [split; assumption|exact N3]|exact G].
  - apply A2; [split; assumption|exact G].
Qed.

(** After success every file in a target is in the backup as a file of that name with all its directories, or is one of the files that are kept. *)
Theorem C58_no_stale fuel m o b t p cs s s' m' rel e : wf (cFs s) -> manifestTargetFind (cmTargets m) pgData = Ok b ->
  (forall t p, In t (cmTargets m) -> targetPathOf m o t = Ok p -> exists cs, plainAt (cFs s) p cs) ->
  restoreCleanBuild maxLinks fail part ev ru rg fuel m o s = (s', Ok m') ->
  In t (cmTargets m) -> targetPathOf m o t = Ok p -> plainAt (cFs s) p cs -> mtFile t = None ->
  rel <> [] -> get (cFs s') (cs ++ rel) = Some e -> isFile e = true ->
  keep (cFs s) (skipFiles o m) (ignoreList o) (targetNameOf o t) cs (strEqb (mtName t) pgData) rel.
Proof. intros W B PL H. intros. eapply no_stale; eassumption. Qed.
End Any.
Print Assumptions C58_dir_exact.
Print Assumptions C58_dir_safe.
Print Assumptions C58_nodelta_keeps.
Print Assumptions C58_nodelta_error.
Print Assumptions C58_owner_error.
Print Assumptions C58_no_file.
Print Assumptions C58_control.
Print Assumptions C58_complete.
Print Assumptions C58_files_left.
Print Assumptions C58_outside.
Print Assumptions C58_no_stale.

(** * What is not so *)
Definition cleanEnv : env := mkEnv 0 0 (fun _ => Some 5) (fun _ => Some 5).
Definition nofails (n : nat) : bool := false.
Definition nopart (n : nat) (p : path) : bool := false.
Definition someUser : option str := Some [117].
Definition sGlobalPath : str := slashed pgData sGlobal.
Definition exMan : cman :=
  mkCman [mkMtarget pgData true [47;100] None 0 None; mkMtarget sGlobalPath false [47;103] None 0 None]
    [mkMpath pgData 448 someUser someUser; mkMpath sGlobalPath 448 someUser someUser]
    [mkMlink sGlobalPath [47;103] someUser someUser]
    [mkMpath (slashed sGlobalPath sPgControl) 384 someUser someUser].
Definition exOpts : copts := mkCopts true false true [80].
Definition dirE (u : Z) : entry := mkEntry KPath u 5 448.

(** pg_control may exist after success: when the directory "global" is linked to is not empty but the link is missing. *)
Theorem C58_control_link_refuted :
  let s := mkCst [([[100]], dirE 5); ([[103]], dirE 5); ([[103]; sPgControl], mkEntry (KFile 7) 5 5 384)] 0 in
  exists s' m', restoreCleanBuild 40 nofails nopart cleanEnv None None 10 exMan exOpts s = (s', Ok m') /\
  storageExists 40 (cFs s') (controlPath [47;100]) = Ok true.
Proof. vm_compute. eexists. eexists. split; reflexivity. Qed.
Print Assumptions C58_control_link_refuted.

(** If the path of a target is a link, the link gets the owner and not the directory. *)
Theorem C58_link_owner_refuted :
  let s := mkCst [([[100]], mkEntry (KLink [47;114]) 1 1 511); ([[114]], mkEntry KPath 1 1 448)] 0 in
  let m := mkCman [mkMtarget pgData true [47;100] None 0 None] [mkMpath pgData 448 someUser someUser] [] [] in
  exists s' m', restoreCleanBuild 40 nofails nopart cleanEnv None None 10 m exOpts s = (s', Ok m') /\
  get (cFs s') [[114]] = Some (mkEntry KPath 1 1 448) /\ expectedUser cleanEnv None someUser = 5.
Proof. vm_compute. eexists. eexists. split; [reflexivity|]. split; reflexivity. Qed.
Print Assumptions C58_link_owner_refuted.

(** Creating a path whose parent is a link to nowhere never ends. *)
Theorem C58_dangling_parent_refuted ev mode fuel : let s := mkCst [([[108]], mkEntry (KLink [47;109]) 0 0 511)] 0 in
  pathCreate 40 nofails ev fuel (splitSlash [47;108;47;120]) false false mode s = (s, Err EOther).
Proof.
  cbv zeta. induction fuel as [|fuel IH]; [reflexivity|]. cbn [pathCreate].
  assert (M1 : mkdir 40 nofails ev (splitSlash [47;108;47;120]) mode (mkCst [([[108]], mkEntry (KLink [47;109]) 0 0 511)] 0) =
    (mkCst [([[108]], mkEntry (KLink [47;109]) 0 0 511)] 0, Err EFileMissing)) by reflexivity.
  rewrite M1. unfold mbind. destruct fuel as [|fuel]; [reflexivity|].
  assert (P1 : pathCreate 40 nofails ev (S fuel) (removelast (splitSlash [47;108;47;120])) false false mode (mkCst [([[108]], mkEntry (KLink [47;109]) 0 0 511)] 0) =
    (mkCst [([[108]], mkEntry (KLink [47;109]) 0 0 511)] 0, Ok tt)) by reflexivity.
  rewrite P1. exact IH.
Qed.
Print Assumptions C58_dangling_parent_refuted.

(** A restore with delta: "old" and "x" are removed from the data directory, "keep" gets owner and mode, pg_control is removed, "base" is created. *)
Definition exKeep : str := [107;101;101;112]. Definition exBase : str := [98;97;115;101].
Definition exMan2 : cman :=
  mkCman [mkMtarget pgData true [47;100] None 0 None]
    [mkMpath pgData 448 someUser someUser; mkMpath (slashed pgData exBase) 448 someUser someUser; mkMpath sGlobalPath 448 someUser someUser]
    [] [mkMpath (slashed pgData exKeep) 384 someUser someUser; mkMpath (slashed sGlobalPath sPgControl) 384 someUser someUser].
Definition exFs : fs :=
  [([[100]], dirE 5); ([[100]; exKeep], mkEntry (KFile 1) 1 1 420); ([[100]; [120]], dirE 1); ([[100]; [120]; exKeep], mkEntry (KFile 2) 1 1 420);
   ([[100]; sGlobal], dirE 5); ([[100]; sGlobal; sPgControl], mkEntry (KFile 3) 5 5 384); ([[101]], mkEntry (KFile 4) 1 1 420)].
Example C58_nontrivial :
  wf exFs /\ manifestTargetFind (cmTargets exMan2) pgData = Ok (mkMtarget pgData true [47;100] None 0 None) /\ baseOk exMan2 (mkMtarget pgData true [47;100] None 0 None) /\
  (forall t p, In t (cmTargets exMan2) -> targetPathOf exMan2 exOpts t = Ok p -> plainAt exFs p [[100]]) /\
  keep exFs exMan2 (ignoreList exOpts) pgData [[100]] true [exKeep] /\ ~ keep exFs exMan2 (ignoreList exOpts) pgData [[100]] true [[120]; exKeep] /\
  storageExists 40 exFs (controlPath [47;100]) = Ok true /\
  exists s', restoreCleanBuild 40 nofails nopart cleanEnv None None 10 exMan2 exOpts (mkCst exFs 0) = (s', Ok exMan2) /\
    get (cFs s') [[100]; exKeep] = Some (mkEntry (KFile 1) 5 5 384) /\ get (cFs s') [[100]; [120]] = None /\
    get (cFs s') [[100]; sGlobal; sPgControl] = None /\ get (cFs s') [[100]; exBase] = Some (dirE 5) /\ get (cFs s') [[101]] = Some (mkEntry (KFile 4) 1 1 420).
Proof.
  assert (BASE : manifestTargetFind (cmTargets exMan2) pgData = Ok (mkMtarget pgData true [47;100] None 0 None)) by reflexivity.
  split; [|split; [exact BASE|split; [|split; [|split; [|split; [|split; [vm_compute; reflexivity|]]]]]]].
  - split; [|split].
    + cbn. repeat constructor; cbn; intuition discriminate.
    + intros p n e G. apply get_in in G. cbn in G. repeat (destruct G as [G|G]; [|]); try contradiction; injection G as G1 G2;
        (destruct p as [|a p]; [now left|]; right; destruct p as [|a' p]; [|destruct p as [|a'' p]; [|exfalso; apply (f_equal (@length str)) in G1; rewrite app_length in G1; cbn in G1; lia]]); try discriminate G1;
        cbn in G1; injection G1 as; subst; eexists; split; vm_compute; reflexivity.
    + reflexivity.
  - split; [exact BASE|]. split; [now left|]. repeat split.
  - intros t p [<-|[]]. vm_compute. intros [= <-]. split; [reflexivity|]. split; [constructor; [repeat split; discriminate|constructor]|].
    intros a b e E G. destruct a as [|x a]; [discriminate G|]. injection E as <- E. symmetry in E. apply app_eq_nil in E as [-> ->]. vm_compute in G. now injection G as <-.
  - vm_compute. split; [reflexivity|]. right. split; [now left|tauto].
  - vm_compute. intros (A & _). intuition discriminate.
  - vm_compute. eexists. repeat split; reflexivity.
Qed.
