(** Preparing the target directories of a restore.  Models src/command/restore/clean.c.inc with the posix functions it uses,
    src/storage/posix/storage.c, on a file system of real paths with symbolic links.
    The file system is the list of what exists, each with its real path; "/" always exists.  Time, content and size of files are one number.
    Every call that changes something may fail, as told by [fail] with a number for each call, so a crash is covered as well; a path
    that is removed with all in it may then be removed in part, as told by [part].  Calls that only read do not fail.  Log messages are left out. *)
From Verif Require Import Base Str ManifestPackModel ManifestModel LinkCheckModel.
Open Scope Z_scope.

Definition path := list str.
(** storage/info.h:29-35 *)
Inductive kind := KFile (content : Z) | KPath | KLink (destination : str) | KSpecial.
Record entry := mkEntry { eKind : kind; eUser : Z; eGroup : Z; eMode : Z }.
Definition fs := list (path * entry).

Fixpoint pathEqb (a b : path) : bool :=
  match a, b with [], [] => true | x :: a, y :: b => strEqb x y && pathEqb a b | _, _ => false end.
Definition get (f : fs) (p : path) : option entry := match find (fun x => pathEqb (fst x) p) f with Some x => Some (snd x) | None => None end.
Definition put (f : fs) (p : path) (e : entry) : fs := (p, e) :: filter (fun x => negb (pathEqb (fst x) p)) f.
Definition del (f : fs) (bad : path -> bool) : fs := filter (fun x => negb (bad (fst x))) f.
(** The rest of [p] below [r] *)
Fixpoint strip (r p : path) : option path :=
  match r, p with [], _ => Some p | x :: r, y :: p => if strEqb x y then strip r p else None | _ :: _, [] => None end.
Definition below (r p : path) : bool := match strip r p with Some _ => true | None => false end.
Definition isLink (e : entry) : bool := match eKind e with KLink _ => true | _ => false end.
Definition isFile (e : entry) : bool := match eKind e with KFile _ => true | _ => false end.

(** The names in a directory with lstat() of each; storage/storage.c storageNewItr() with sortOrder *)
Definition children (f : fs) (r : path) : list (str * entry) :=
  sortBy fst strLeb (flat_map (fun x => match strip r (fst x) with Some [n] => [(n, snd x)] | _ => [] end) f).

Section Sys.
(** Most links followed in one path (ELOOP); the calls that fail; what is gone when removing a path failed *)
Variables (maxLinks : nat) (fail : nat -> bool) (part : nat -> path -> bool).

(** How the system finds the real path: parts [todo] from directory [done].  EFileMissing is ENOENT, EFileOpen is ENOTDIR or ELOOP.  The last
    part need not exist; if it is a link it is followed if [follow]. *)
Fixpoint resolve (n : nat) (f : fs) (follow : bool) : path -> list str -> res path :=
  fix go (done : path) (todo : list str) : res path :=
    match todo with
    | [] => Ok done
    | c :: rest =>
        if strEqb c [] || strEqb c [46] then go done rest
        else if strEqb c [46;46] then go (removelast done) rest
        else
          match get f (done ++ [c]) with
          | None => match rest with [] => Ok (done ++ [c]) | _ => Err EFileMissing end
          | Some e =>
              match eKind e, rest with
              | KPath, _ => go (done ++ [c]) rest
              | KLink d, _ =>
                  if match rest with [] => negb follow | _ => false end then Ok (done ++ [c])
                  else
                    match n with
                    | O => Err EFileOpen
                    | S n => resolve n f follow (if strBeginsWith d [47] then [] else done) (splitSlash d ++ rest)
                    end
              | _, [] => Ok (done ++ [c])
              | _, _ => Err EFileOpen
              end
          end
    end.
Definition real (f : fs) (follow : bool) (p : str) : res path := resolve maxLinks f follow [] (splitSlash p).
(** posix/storage.c:38-115 with ignoreMissing: where it is and what it is *)
Definition info (f : fs) (follow : bool) (p : str) : res (option (path * entry)) :=
  match real f follow p with
  | Ok r => match r with
            | [] => Ok (Some ([], mkEntry KPath 0 0 493))
            | _ => match get f r with Some e => Ok (Some (r, e)) | None => Ok None end
            end
  | Err EFileMissing => Ok None
  | Err e => Err e
  | UB => UB
  end.
(** storage.c:165-198 *)
Definition storageExists (f : fs) (p : str) : res bool :=
  let* i := info f true p in Ok (match i with Some (_, e) => isFile e | None => false end).

(** * Calls that change something *)
Record cst := mkCst { cFs : fs; cN : nat }.
Definition M (A : Type) : Type := cst -> cst * res A.
Definition ret {A} (a : A) : M A := fun s => (s, Ok a).
Definition throw {A} (e : errkind) : M A := fun s => (s, Err e).
Definition mbind {A B} (m : M A) (k : A -> M B) : M B :=
  fun s => match m s with (s', Ok a) => k a s' | (s', Err e) => (s', Err e) | (s', UB) => (s', UB) end.
Definition reads {A} (g : fs -> res A) : M A := fun s => (s, g (cFs s)).
Definition call (g h : fs -> fs) : M unit :=
  fun s => if fail (cN s) then (mkCst (h (cFs s)) (S (cN s)), Err EFileWrite) else (mkCst (g (cFs s)) (S (cN s)), Ok tt).
Fixpoint forM {A} (l : list A) (k : A -> M unit) : M unit :=
  match l with [] => ret tt | a :: r => mbind (k a) (fun _ => forM r k) end.

(** unlink(), lchown() and chmod() at a real path *)
Definition unlinkAt (p : path) : M unit := call (fun f => del f (pathEqb p)) (fun f => f).
Definition attr (p : path) (g : entry -> entry) (f : fs) : fs := match get f p with Some e => put f p (g e) | None => f end.
Definition chownAt (p : path) (u g : Z) : M unit := call (attr p (fun e => mkEntry (eKind e) u g (eMode e))) (fun f => f).
Definition chmodAt (p : path) (m : Z) : M unit := call (attr p (fun e => mkEntry (eKind e) (eUser e) (eGroup e) m)) (fun f => f).
(** posix/storage.c:436-503: with all that is in it *)
Definition pathRemoveAt (p : path) : M unit := fun s => call (fun f => del f (below p)) (fun f => del f (fun q => below p q && part (cN s) q)) s.
(** mkdir(), symlink() at a real path that does not exist yet; there is no umask *)
Definition createAt (p : path) (e : entry) : M unit := call (fun f => put f p e) (fun f => f).

(** * Clean *)
(** Who runs the restore: userId(), groupId(), userIdFromName(), groupIdFromName() with None for (uid_t)-1 *)
Record env := mkEnv { evUser : Z; evGroup : Z; evUserId : str -> option Z; evGroupId : str -> option Z }.
Variables (ev : env) (rootUser rootGroup : option str).
Definition userRoot : bool := evUser ev =? 0.
(** clean.c.inc:4-14 *)
Definition ownerReplace (owner root : option str) : option str :=
  if userRoot then match owner with None => root | Some o => Some o end else None.
Definition expectedId (self : Z) (byName : str -> option Z) (owner root : option str) : Z :=
  match ownerReplace owner root with None => self | Some n => match byName n with Some i => i | None => self end end.
Definition expectedUser (owner : option str) : Z := expectedId (evUser ev) (evUserId ev) owner rootUser.
Definition expectedGroup (owner : option str) : Z := expectedId (evGroup ev) (evGroupId ev) owner rootGroup.
(** clean.c.inc:138-195 *)
Definition cleanOwnership (p : path) (user group : option str) (actualUser actualGroup : Z) : M unit :=
  if negb (actualUser =? expectedUser user) || negb (actualGroup =? expectedGroup group) then chownAt p (expectedUser user) (expectedGroup group)
  else ret tt.
(** clean.c.inc:198-222 *)
Definition cleanMode (p : path) (mode : Z) (e : entry) : M unit := if negb (mode =? eMode e) then chmodAt p mode else ret tt.

(** The part of the manifest that is used; a file is given by name, mode, user and group *)
Record cman := mkCman { cmTargets : list mtarget; cmPaths : list mpath; cmLinks : list mlink; cmFiles : list mpath }.
Definition findPath (l : list mpath) (n : str) : option mpath := find (fun p => strEqb (mpName p) n) l.
Definition findLink (l : list mlink) (n : str) : option mlink := find (fun p => strEqb (mlName p) n) l.
Definition slashed (a b : str) : str := a ++ 47 :: b.

(** clean.c.inc:224-356.  [name] is targetName, [r] the real path of targetPath; the directory is listed before the loop.  Paths are recursed into with
    fuel, EOther stands for "still running". *)
Definition cleanOne (m : cman) (ignore : list str) (delta : bool) (recurse : str -> path -> M unit) (name : str) (r : path) (base : bool)
    (c : str * entry) : M unit :=
  let (n, e) := c in
  if base && isFile e && strLstExists ignore n then ret tt
  else if negb delta then throw EPathNotEmpty
  else
    let mname := slashed name n in
    let p := r ++ [n] in
    match eKind e with
    | KFile _ =>
        match findPath (cmFiles m) mname, findLink (cmLinks m) mname with
        | Some f, None => mbind (cleanOwnership p (mpUser f) (mpGroup f) (eUser e) (eGroup e)) (fun _ => cleanMode p (mpMode f) e)
        | _, _ => unlinkAt p
        end
    | KLink d =>
        match findLink (cmLinks m) mname with
        | Some k => if negb (strEqb (mlDestination k) d) then unlinkAt p else cleanOwnership p (mlUser k) (mlGroup k) (eUser e) (eGroup e)
        | None => unlinkAt p
        end
    | KPath =>
        match findPath (cmPaths m) mname, findLink (cmLinks m) mname with
        | Some f, None =>
            mbind (cleanOwnership p (mpUser f) (mpGroup f) (eUser e) (eGroup e)) (fun _ =>
            mbind (cleanMode p (mpMode f) e) (fun _ => recurse mname p))
        | _, _ => pathRemoveAt p
        end
    | KSpecial => unlinkAt p
    end.
Fixpoint cleanDir (fuel : nat) (m : cman) (ignore : list str) (delta : bool) (name : str) (r : path) (base : bool) : M unit :=
  match fuel with
  | O => throw EOther
  | S fuel =>
      mbind (reads (fun f => Ok (children f r))) (fun l =>
        forM l (cleanOne m ignore delta (fun n p => cleanDir fuel m ignore delta n p false) name r base))
  end.

(** posix/storage.c:395-434: mkdir() and, if ENOENT, the parent first *)
Definition mkdir (p : list str) (mode : Z) : M bool :=
  mbind (fun s => (s, match resolve maxLinks (cFs s) false [] p with
                      | Ok [] => Ok (Some None)
                      | Ok r => match get (cFs s) r with Some _ => Ok (Some None) | None => Ok (Some (Some r)) end
                      | Err EFileMissing => Ok None
                      | Err e => Err e
                      | UB => UB
                      end))
    (fun o => match o with
              | None => throw EFileMissing
              | Some None => ret true
              | Some (Some r) => mbind (createAt r (mkEntry KPath (evUser ev) (evGroup ev) mode)) (fun _ => ret false)
              end).
(** The result of [mkdir] is whether it existed; ENOENT is EFileMissing *)
Fixpoint pathCreate (fuel : nat) (p : list str) (errorOnExists noParent : bool) (mode : Z) : M unit :=
  match fuel with
  | O => throw EOther
  | S fuel =>
      fun s =>
        match mkdir p mode s with
        | (s', Ok existed) => if existed && errorOnExists then (s', Err EFileWrite) else (s', Ok tt)
        | (s', Err EFileMissing) =>
            if noParent then (s', Err EFileWrite)
            else mbind (pathCreate fuel (removelast p) errorOnExists noParent mode) (fun _ => pathCreate fuel p errorOnExists noParent mode) s'
        | (s', Err e) => (s', Err e)
        | (s', UB) => (s', UB)
        end
  end.

(** clean.c.inc:120-132: what is kept for a target between the steps *)
Record cdata := mkCdata { cdTarget : mtarget; cdName : str; cdPath : str; cdBase : bool; cdExists : bool }.
(** Options: delta or force; type is preserve; the version has recovery GUCs; pgTablespaceId() *)
Record copts := mkCopts { coDelta : bool; coPreserve : bool; coGuc : bool; coTablespaceId : str }.
Definition sManifest : str := [98;97;99;107;117;112;46;109;97;110;105;102;101;115;116]. (* backup.manifest *)
Definition sAutoConf : str := [112;111;115;116;103;114;101;115;113;108;46;97;117;116;111;46;99;111;110;102]. (* postgresql.auto.conf *)
Definition sRecoverySignal : str := [114;101;99;111;118;101;114;121;46;115;105;103;110;97;108]. (* recovery.signal *)
Definition sStandbySignal : str := [115;116;97;110;100;98;121;46;115;105;103;110;97;108]. (* standby.signal *)
Definition sRecoveryConf : str := [114;101;99;111;118;101;114;121;46;99;111;110;102]. (* recovery.conf *)
Definition sGlobal : str := [103;108;111;98;97;108]. (* global *)
Definition sPgControl : str := [112;103;95;99;111;110;116;114;111;108]. (* pg_control *)
Definition sTablespaceMap : str := [116;97;98;108;101;115;112;97;99;101;95;109;97;112]. (* tablespace_map *)
(** clean.c.inc:397-418, 427 *)
Definition ignoreList (o : copts) : list str :=
  strLstSortAsc (sManifest :: (if coPreserve o then if coGuc o then [sAutoConf; sRecoverySignal; sStandbySignal] else [sRecoveryConf] else [])).
(** clean.c.inc:380-483, step 1 for one target; nothing is changed, so the recursion is over the listing only.  EFileOpen is PathOpenError, EOther is
    FileExistsError. *)
Definition step1One (f : fs) (m : cman) (o : copts) (t : mtarget) : res cdata :=
  let* p := manifestTargetPath (cmTargets m) t in
  let base := strEqb (mtName t) pgData in
  let ts := negb (mtIsPath t) && negb (mtTablespaceId t =? 0) in
  let name := if ts then slashed (mtName t) (coTablespaceId o) else mtName t in
  let p := if ts then slashed p (coTablespaceId o) else p in
  let* i := info f true p in
  match i with
  | None => Ok (mkCdata t name p base false)
  | Some (r, e) =>
      if negb userRoot && negb (evUser ev =? eUser e) then Err EFileOpen
      else if negb (Z.land (eMode e) 448 =? 448) then Err EFileOpen
      else
        let* _ :=
          if coDelta o then Ok tt
          else
            match mtFile t with
            | None =>
                match eKind e with
                | KPath => snd (forM (children f r) (cleanOne m (ignoreList o) false (fun _ _ => ret tt) name r base) (mkCst f 0))
                | _ => Err EFileOpen
                end
            | Some file => let* x := storageExists f (slashed p file) in if x then Err EOther else Ok tt
            end in
        Ok (mkCdata t name p base true)
  end.
(** clean.c.inc:485-501: tablespace_map and postgresql.auto.conf are not restored *)
Definition skipFiles (o : copts) (m : cman) : cman :=
  let drop n m := mkCman (cmTargets m) (cmPaths m) (cmLinks m) (filter (fun p => negb (strEqb (mpName p) n)) (cmFiles m)) in
  let m := drop (slashed pgData sTablespaceMap) m in
  if coGuc o && coPreserve o then drop (slashed pgData sAutoConf) m else m.
(** clean.c.inc:505-514: [pg] is the data directory; the sync of the path may fail as well *)
Definition removeControl (pg : str) : M unit :=
  let p := slashed pg (slashed sGlobal sPgControl) in
  mbind (reads (fun f => storageExists f p)) (fun x =>
    if x then
      mbind (reads (fun f => real f false p)) (fun r => mbind (unlinkAt r) (fun _ => call (fun f => f) (fun f => f)))
    else ret tt).
Definition findOr {A} (o : option A) : M A := match o with Some a => ret a | None => throw EAssert end.
(** clean.c.inc:516-569, step 2 for one target *)
Definition step2One (fuel : nat) (m : cman) (o : copts) (d : cdata) : M unit :=
  if cdExists d then
    match mtFile (cdTarget d) with
    | None =>
        mbind (findOr (findPath (cmPaths m) (cdName d))) (fun mp =>
        mbind (reads (fun f => info f true (cdPath d))) (fun i =>
        match i with
        | None => throw EFileOpen
        | Some (r, e) =>
            mbind (reads (fun f => real f false (cdPath d))) (fun l =>
            mbind (cleanOwnership l (mpUser mp) (mpGroup mp) (eUser e) (eGroup e)) (fun _ =>
            mbind (cleanMode r (mpMode mp) e) (fun _ =>
            match eKind e with
            | KPath => cleanDir fuel m (ignoreList o) true (cdName d) r (cdBase d)
            | _ => throw EFileOpen
            end)))
        end))
    | Some _ => ret tt
    end
  else
    mbind (findOr (findPath (cmPaths m) (match mtFile (cdTarget d) with Some _ => pgData | None => mtName (cdTarget d) end))) (fun mp =>
    mbind (pathCreate fuel (splitSlash (cdPath d)) false false (mpMode mp)) (fun _ =>
    mbind (reads (fun f => real f false (cdPath d))) (fun l =>
    cleanOwnership l (mpUser mp) (mpGroup mp) (evUser ev) (evGroup ev)))).
(** storagePathP(storagePg(), manifestPathPg(name)) *)
Definition pgPathOf (pg name : str) : str := match manifestPathPg name with Some s => slashed pg s | None => pg end.
(** clean.c.inc:587-603, 615-633: a link that is missing is created *)
Definition linkCreate (pg : str) (k : mlink) : M unit :=
  let p := pgPathOf pg (mlName k) in
  mbind (reads (fun f => info f false p)) (fun i =>
  match i with
  | Some _ => ret tt
  | None =>
      mbind (reads (fun f => real f false p)) (fun r =>
      mbind (createAt r (mkEntry (KLink (mlDestination k)) (evUser ev) (evGroup ev) 511)) (fun _ =>
      cleanOwnership r (mlUser k) (mlGroup k) (evUser ev) (evGroup ev)))
  end).
(** clean.c.inc:571-624, step 3 for one path *)
Definition step3One (fuel : nat) (m : cman) (pg : str) (mp : mpath) : M unit :=
  if strEqb (mpName mp) pgTblspc then ret tt
  else
    match findLink (cmLinks m) (if strBeginsWith (mpName mp) pgTblspc then slashed pgData (mpName mp) else mpName mp) with
    | Some k => linkCreate pg k
    | None =>
        let p := pgPathOf pg (mpName mp) in
        mbind (reads (fun f => info f false p)) (fun i =>
        match i with
        | Some _ => ret tt
        | None =>
            mbind (pathCreate fuel (splitSlash p) true true (mpMode mp)) (fun _ =>
            mbind (reads (fun f => real f false p)) (fun r =>
            cleanOwnership r (mpUser mp) (mpGroup mp) (evUser ev) (evGroup ev)))
        end)
    end.
(** clean.c.inc:358-639.  The data directory is the path of its target, see restoreManifestMap().  The result is the manifest afterwards. *)
Definition restoreCleanBuild (fuel : nat) (m : cman) (o : copts) : M cman :=
  mbind (reads (fun f => mapR (step1One f m o) (cmTargets m))) (fun ds =>
  let m := skipFiles o m in
  mbind (reads (fun _ => let* b := manifestTargetFind (cmTargets m) pgData in Ok (mtPath b))) (fun pg =>
  mbind (removeControl pg) (fun _ =>
  mbind (forM ds (step2One fuel m o)) (fun _ =>
  mbind (forM (cmPaths m) (step3One fuel m pg)) (fun _ =>
  mbind (forM (cmLinks m) (linkCreate pg)) (fun _ =>
  ret m)))))).
End Sys.
