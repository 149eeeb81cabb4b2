(** What remapping should do, without the functions of the model *)
From Verif Require Import Base Str NumModel ManifestPackModel ManifestModel LinkCheckModel CleanModel RemapModel.
Open Scope Z_scope.

(** [a] / [b] *)
Definition under (a b : str) : str := a ++ [47] ++ b.
Definition noSlashIn (s : str) : Prop := ~ In 47 s.
(** The path [p] is the file [f] in the directory [d] *)
Definition fileIn (p d f : str) : Prop := noSlashIn f /\ d <> [] /\ (p = under d f \/ (d = [47] /\ p = 47 :: f)).
Definition isTablespace (t : mtarget) : Prop := mtTablespaceId t <> 0.
(** The name of the link that belongs to a target *)
Definition linkOf (t : mtarget) (n : str) : Prop := (isTablespace t /\ n = under pgData (mtName t)) \/ (~ isTablespace t /\ n = mtName t).
(** Destination of the link of a target *)
Definition leads (t : mtarget) (d : str) : Prop := match mtFile t with None => d = mtPath t | Some f => fileIn d (mtPath t) f end.
Definition named (l : list mpath) (n : str) : Prop := exists p, In p l /\ mpName p = n.

(** A manifest as it is made by a backup.  Targets other than the data directory are links. *)
Record mapWf (m : cman) : Prop := {
  wfNames : NoDup (map mtName (cmTargets m));
  wfLinkNames : NoDup (map mlName (cmLinks m));
  wfPathNames : NoDup (map mpName (cmPaths m));
  wfBase : exists b, In b (cmTargets m) /\ mtName b = pgData /\ mtFile b = None;
  wfBasePath : named (cmPaths m) pgData;
  wfIsBase : forall t, In t (cmTargets m) -> mtName t = pgData -> mtIsPath t = true /\ ~ isTablespace t;
  wfTarget : forall t, In t (cmTargets m) -> mtName t <> pgData -> mtIsPath t = false;
  wfTablespace : forall t, In t (cmTargets m) -> isTablespace t ->
    (exists n, mtName t = under pgTblspc n) /\ mtFile t = None /\ (exists n, mtTablespaceName t = Some n) /\
    ~ named (cmPaths m) (under pgData (mtName t)) /\ ~ named (cmFiles m) (under pgData (mtName t));
  wfLink : forall t, In t (cmTargets m) -> mtName t <> pgData -> ~ isTablespace t -> exists x, mtName t = under pgData x;
  (* a target has a link that leads to it *)
  wfHasLink : forall t, In t (cmTargets m) -> mtName t <> pgData -> exists k, In k (cmLinks m) /\ linkOf t (mlName k) /\ leads t (mlDestination k);
  (* and a link belongs to one target *)
  wfHasTarget : forall k, In k (cmLinks m) -> exists t, In t (cmTargets m) /\ mtName t <> pgData /\ linkOf t (mlName k);
  wfOneTarget : forall t u n, In t (cmTargets m) -> In u (cmTargets m) -> mtName t <> pgData -> mtName u <> pgData -> linkOf t n -> linkOf u n -> t = u;
  wfPathFile : forall n, named (cmPaths m) n -> named (cmFiles m) n -> False
}.
Definition optsWf (o : ropts) : Prop := NoDup (map fst (roTablespace o)) /\ NoDup (map fst (roLink o)).

(** A tablespace is given by name or by id *)
Definition keyOf (t : mtarget) (k : str) : Prop := mtTablespaceName t = Some k \/ k = cvtUIntToZ (mtTablespaceId t).
(** The path a tablespace is mapped to *)
Definition tsMapped (o : ropts) (t : mtarget) (p : str) : Prop :=
  (exists k, keyOf t k /\ In (k, p) (roTablespace o)) \/
  ((forall k q, keyOf t k -> ~ In (k, q) (roTablespace o)) /\ exists a n, roAll o = Some a /\ mtTablespaceName t = Some n /\ p = under a n).
(** Errors of the tablespace map *)
Definition tsBad (o : ropts) (m : cman) : Prop :=
  (exists t k1 k2 p q, In t (cmTargets m) /\ isTablespace t /\ keyOf t k1 /\ keyOf t k2 /\ In (k1, p) (roTablespace o) /\ In (k2, q) (roTablespace o) /\ p <> q) \/
  (exists k p, In (k, p) (roTablespace o) /\ forall t, In t (cmTargets m) -> isTablespace t -> ~ keyOf t k).
(** Errors of the link map: the link is neither a link nor a path or file of the backup; the destination of a file has no directory *)
Definition isTarget (m : cman) (x : str) : Prop := exists t, In t (cmTargets m) /\ mtName t = under pgData x.
Definition isFileLink (m : cman) (x : str) : Prop :=
  (exists t f, In t (cmTargets m) /\ mtName t = under pgData x /\ mtFile t = Some f) \/ (~ isTarget m x /\ named (cmFiles m) (under pgData x)).
Definition linkBad (o : ropts) (m : cman) : Prop :=
  exists x p, In (x, p) (roLink o) /\
    ((~ isTarget m x /\ ~ named (cmPaths m) (under pgData x) /\ ~ named (cmFiles m) (under pgData x)) \/ (isFileLink m x /\ noSlashIn p)).

(** What a target becomes; None if it is dropped *)
Definition moved (t : mtarget) (path : str) (file : option str) : mtarget :=
  mkMtarget (mtName t) (mtIsPath t) path file (mtTablespaceId t) (mtTablespaceName t).
Inductive after (o : ropts) (t : mtarget) : option mtarget -> Prop :=
| A_base : mtName t = pgData -> after o t (Some (moved t (roPg o) (mtFile t)))
| A_ts p : mtName t <> pgData -> isTablespace t -> tsMapped o t p -> after o t (Some (moved t p (mtFile t)))
| A_ts_same : mtName t <> pgData -> isTablespace t -> (forall p, ~ tsMapped o t p) -> after o t (Some t)
| A_path x p : ~ isTablespace t -> mtName t = under pgData x -> In (x, p) (roLink o) -> mtFile t = None -> after o t (Some (moved t p None))
| A_file x p f d g : ~ isTablespace t -> mtName t = under pgData x -> In (x, p) (roLink o) -> mtFile t = Some f -> fileIn p d g ->
    after o t (Some (moved t d (Some g)))
| A_keep x : ~ isTablespace t -> mtName t = under pgData x -> (forall p, ~ In (x, p) (roLink o)) -> roLinkAll o = true -> after o t (Some t)
| A_drop x : ~ isTablespace t -> mtName t = under pgData x -> (forall p, ~ In (x, p) (roLink o)) -> roLinkAll o = false -> after o t None.
(** What a link becomes that belongs to the target *)
Definition afterLink (o : ropts) (m : cman) (k : mlink) (k' : option mlink) : Prop :=
  exists t, In t (cmTargets m) /\ mtName t <> pgData /\ linkOf t (mlName k) /\
  match k' with
  | None => after o t None
  | Some k' => mlName k' = mlName k /\ mlUser k' = mlUser k /\ mlGroup k' = mlGroup k /\
      ((isTablespace t /\ tsMapped o t (mlDestination k')) \/
       (isTablespace t /\ (forall p, ~ tsMapped o t p) /\ mlDestination k' = mlDestination k) \/
       (~ isTablespace t /\ exists x, mtName t = under pgData x /\
          (In (x, mlDestination k') (roLink o) \/
           ((forall p, ~ In (x, p) (roLink o)) /\ roLinkAll o = true /\ mlDestination k' = mlDestination k))))
  end.
(** The target and the link made for an entry of the link map that is a path or file of the backup *)
Definition newTarget (o : ropts) (m : cman) (x : str) (t : mtarget) : Prop :=
  mtName t = under pgData x /\ mtIsPath t = false /\ mtTablespaceId t = 0 /\ mtTablespaceName t = None /\
  exists p, In (x, p) (roLink o) /\
    ((named (cmPaths m) (under pgData x) /\ mtFile t = None /\ mtPath t = p) \/
     (named (cmFiles m) (under pgData x) /\ exists g, mtFile t = Some g /\ fileIn p (mtPath t) g)).
Definition newLink (o : ropts) (m : cman) (x : str) (k : mlink) : Prop :=
  mlName k = under pgData x /\ In (x, mlDestination k) (roLink o) /\
  exists b, In b (cmPaths m) /\ mpName b = pgData /\ mlUser k = mpUser b /\ mlGroup k = mpGroup b.
Definition somes {A} (l : list (option A)) : list A := flat_map (fun o => match o with Some a => [a] | None => [] end) l.
(** The entries of the link map that are no links of the backup, in order *)
Definition newKeys (o : ropts) (m : cman) (xs : list str) : Prop :=
  ssorted xs /\ forall x, In x xs <-> (exists p, In (x, p) (roLink o)) /\ ~ isTarget m x.
(** The whole result *)
Definition mapped (o : ropts) (m m' : cman) : Prop :=
  cmPaths m' = cmPaths m /\ cmFiles m' = cmFiles m /\
  exists xs, newKeys o m xs /\
    (exists outs new, Forall2 (after o) (cmTargets m) outs /\ Forall2 (newTarget o m) xs new /\ cmTargets m' = somes outs ++ new) /\
    (exists outs new, Forall2 (afterLink o m) (cmLinks m) outs /\ Forall2 (newLink o m) xs new /\ cmLinks m' = somes outs ++ new).
