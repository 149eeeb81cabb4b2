(** What cleaning the target directories of a restore should do. *)
From Verif Require Import Base Str ManifestPackModel ManifestModel LinkCheckModel CleanModel.
Open Scope Z_scope.

(** A file system: nothing twice and everything in a directory *)
Definition wf (f : fs) : Prop :=
  NoDup (map fst f) /\ (forall p n e, get f (p ++ [n]) = Some e -> p = [] \/ exists d, get f p = Some d /\ eKind d = KPath) /\ get f [] = None.
(** The same file, directory, link or special file; owner and mode may differ *)
Definition same (e e' : entry) : Prop := eKind e = eKind e'.

(** What is at [r ++ rel] is to stay in the directory [r] which is [name] in the manifest: every directory on the way is in the manifest as a
    path and not a link; it is itself in the manifest and, if it is a link, has the right destination; or it is one of the files to ignore. *)
Fixpoint keep (f : fs) (m : cman) (ignore : list str) (name : str) (r : path) (base : bool) (rel : path) : Prop :=
  match rel with
  | [] => False
  | n :: rest =>
      match get f (r ++ [n]) with
      | None => False
      | Some e =>
          match eKind e with
          | KFile _ =>
              rest = [] /\ ((base = true /\ In n ignore) \/
                (In (slashed name n) (map mpName (cmFiles m)) /\ ~ In (slashed name n) (map mlName (cmLinks m))))
          | KLink d => rest = [] /\ exists k, findLink (cmLinks m) (slashed name n) = Some k /\ mlDestination k = d
          | KPath =>
              In (slashed name n) (map mpName (cmPaths m)) /\ ~ In (slashed name n) (map mlName (cmLinks m)) /\
              (rest = [] \/ keep f m ignore (slashed name n) (r ++ [n]) false rest)
          | KSpecial => False
          end
      end
  end.

(** Owner and mode that something named [mname] should have; links have no mode *)
Definition attrOk (ev : env) (rootUser rootGroup : option str) (m : cman) (mname : str) (e : entry) : Prop :=
  let owner user group := eUser e = expectedUser ev rootUser user /\ eGroup e = expectedGroup ev rootGroup group in
  match eKind e with
  | KFile _ => exists p, findPath (cmFiles m) mname = Some p /\ owner (mpUser p) (mpGroup p) /\ eMode e = mpMode p
  | KPath => exists p, findPath (cmPaths m) mname = Some p /\ owner (mpUser p) (mpGroup p) /\ eMode e = mpMode p
  | KLink _ => exists k, findLink (cmLinks m) mname = Some k /\ owner (mlUser k) (mlGroup k)
  | KSpecial => False
  end.
(** The name in the manifest of [rel] in the target [name] *)
Fixpoint nameAt (name : str) (rel : path) : str := match rel with [] => name | n :: r => nameAt (slashed name n) r end.

(** The directory of a target; tablespaces have one for each version *)
Definition targetPathOf (m : cman) (o : copts) (t : mtarget) : res str :=
  let* p := manifestTargetPath (cmTargets m) t in
  Ok (if negb (mtIsPath t) && negb (mtTablespaceId t =? 0) then slashed p (coTablespaceId o) else p).
(** "/a/b/c" is a, b, c and none of them is a link *)
Definition plainAt (f : fs) (p : str) (cs : path) : Prop :=
  splitSlash p = [] :: cs /\ Forall (fun c => c <> [] /\ c <> [46] /\ c <> [46;46]) cs /\
  (forall a b e, cs = a ++ b -> get f a = Some e -> isLink e = false).
(** [q] is a target, or it is in a target that is a directory *)
Definition isTarget (m : cman) (o : copts) (q : path) : Prop :=
  exists t p, In t (cmTargets m) /\ targetPathOf m o t = Ok p /\ splitSlash p = [] :: q.
Definition inTarget (m : cman) (o : copts) (q : path) : Prop :=
  exists t p cs n rest, In t (cmTargets m) /\ targetPathOf m o t = Ok p /\ splitSlash p = [] :: cs /\ mtFile t = None /\ q = cs ++ n :: rest.
(** pg_control of the data directory *)
Definition controlPath (pg : str) : str := slashed pg (slashed sGlobal sPgControl).
(** Something is at [p], maybe a link *)
Definition existsAt (maxLinks : nat) (f : fs) (p : str) : Prop := exists r, real maxLinks f false p = Ok r /\ (r = [] \/ get f r <> None).
(** The data directory is a target and its path is absolute *)
Definition baseOk (m : cman) (b : mtarget) : Prop :=
  manifestTargetFind (cmTargets m) pgData = Ok b /\ In b (cmTargets m) /\ mtIsPath b = true /\ mtFile b = None /\ strBeginsWith (mtPath b) [47] = true.
(** The name in the manifest of what is in the directory of a target *)
Definition targetNameOf (o : copts) (t : mtarget) : str :=
  if negb (mtIsPath t) && negb (mtTablespaceId t =? 0) then slashed (mtName t) (coTablespaceId o) else mtName t.
