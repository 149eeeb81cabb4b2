(** Creating and upgrading a stanza.  Models src/command/stanza/create.c, src/command/stanza/upgrade.c and the info checks of
    src/command/check/common.c.

    A repository has four info files and the other entries of its archive and backup directories.  What is in a file is what loading it gives
    (see InfoModel and ArchiveIdModel for the text): the PostgreSQL history and the rest (keys of the repository, list of backups), or an error.
    Catalog versions, which no check reads, are left out.  The commands give the writes that they do, in order; each is one step (posix
    storage writes to a temporary file and renames), so a command that is killed has done some first part of them.  The version and system id
    of the cluster (pgValidate) and the generated keys are arguments. *)
From Verif Require Import Base Str ArchiveIdModel InfoModel.
Open Scope Z_scope.

Inductive fileId := FArchive | FArchiveCopy | FBackup | FBackupCopy.
Inductive file := Good (i : infoPg) (rest : str) | Bad (e : errkind).
(** create.c:55-58, 64-67 *)
Record repo := mkRepo
{ rArchive : option file; rArchiveCopy : option file; rBackup : option file; rBackupCopy : option file;
  rArchiveList : list str; rBackupList : list str }.

Definition getF (r : repo) (f : fileId) : option file :=
  match f with FArchive => rArchive r | FArchiveCopy => rArchiveCopy r | FBackup => rBackup r | FBackupCopy => rBackupCopy r end.
(** storagePut *)
Definition putF (r : repo) (w : fileId * file) : repo :=
  let x := Some (snd w) in
  match fst w with
  | FArchive => mkRepo x (rArchiveCopy r) (rBackup r) (rBackupCopy r) (rArchiveList r) (rBackupList r)
  | FArchiveCopy => mkRepo (rArchive r) x (rBackup r) (rBackupCopy r) (rArchiveList r) (rBackupList r)
  | FBackup => mkRepo (rArchive r) (rArchiveCopy r) x (rBackupCopy r) (rArchiveList r) (rBackupList r)
  | FBackupCopy => mkRepo (rArchive r) (rArchiveCopy r) (rBackup r) x (rArchiveList r) (rBackupList r)
  end.
Definition puts (r : repo) (ws : list (fileId * file)) : repo := fold_left putF ws r.

(** storageNewRead with infoArchiveNewLoad / infoBackupNewLoad *)
Definition readF (f : option file) : res (infoPg * str) :=
  match f with None => Err EFileMissing | Some (Bad e) => Err e | Some (Good i rest) => Ok (i, rest) end.
(** infoArchive.c:253-301, infoBackup.c:715-760: the file, then its copy *)
Definition loadF (main copy : option file) : res (infoPg * str) := infoLoad None [readF main; readF copy].
(** infoPg.c:352-386 infoPgData with infoPgDataCurrentId; lstGet of a missing item is an AssertError *)
Definition curPg (i : infoPg) : res pgData :=
  match nth_error (ipHistory i) (ipCurrent i) with Some d => Ok d | None => Err EAssert end.

(** check/common.c:97-122 checkStanzaInfo.  FileInvalidError is [EOther]. *)
Definition checkStanzaInfo (a b : pgData) : res unit :=
  if negb (pdId a =? pdId b) || negb (pdSystemId a =? pdSystemId b) || negb (pdVersion a =? pdVersion b) then Err EOther else Ok tt.
(** check/common.c:125-161 checkStanzaInfoPg *)
Definition checkStanzaInfoPg (r : repo) (version systemId : Z) : res unit :=
  let* ai := loadF (rArchive r) (rArchiveCopy r) in
  let* a := curPg (fst ai) in
  let* bi := loadF (rBackup r) (rBackupCopy r) in
  let* b := curPg (fst bi) in
  let* _ := checkStanzaInfo a b in
  if negb (version =? pdVersion a) || negb (systemId =? pdSystemId a) then Err EOther else Ok tt.

(** infoArchive.c:303-335, infoBackup.c:900-937: the file, then its copy *)
Definition saveArchive (i : infoPg) (rest : str) : list (fileId * file) := [(FArchive, Good i rest); (FArchiveCopy, Good i rest)].
Definition saveBackup (i : infoPg) (rest : str) : list (fileId * file) := [(FBackup, Good i rest); (FBackupCopy, Good i rest)].

Definition isSome {A} (o : option A) : bool := match o with Some _ => true | None => false end.
(** create.c:112-123, 125-134: the existing file to the missing one *)
Definition copyMissing (main copy : fileId) (r : repo) : list (fileId * file) :=
  match getF r main, getF r copy with
  | Some x, None => [(copy, x)]
  | None, Some x => [(main, x)]
  | _, _ => []
  end.
(** create.c:44-149: one repository; [keyA] and [keyB] are the generated keys *)
Definition createRepo (version systemId : Z) (keyA keyB : str) (r : repo) : res (list (fileId * file)) :=
  let a := isSome (rArchive r) in let ac := isSome (rArchiveCopy r) in
  let b := isSome (rBackup r) in let bc := isSome (rBackupCopy r) in
  if negb a && negb ac && negb b && negb bc then
    if negb (match rArchiveList r with [] => true | _ => false end) || negb (match rBackupList r with [] => true | _ => false end) then Err EPathNotEmpty
    else let* ia := infoArchiveNew version systemId in
         let* ib := infoArchiveNew version systemId in
         Ok (saveArchive ia keyA ++ saveBackup ib keyB)
  else if (a || ac) && (b || bc) then
    let* _ := checkStanzaInfoPg r version systemId in
    Ok (copyMissing FArchive FArchiveCopy r ++ copyMissing FBackup FBackupCopy r)
  else Err EFileMissing.

(** upgrade.c:39-97: one repository *)
Definition upgradeRepo (version systemId : Z) (r : repo) : res (list (fileId * file)) :=
  let* ai := loadF (rArchive r) (rArchiveCopy r) in
  let* a := curPg (fst ai) in
  let* bi := loadF (rBackup r) (rBackupCopy r) in
  let* b := curPg (fst bi) in
  let ua := negb (version =? pdVersion a) || negb (systemId =? pdSystemId a) in
  let ub := negb (version =? pdVersion b) || negb (systemId =? pdSystemId b) in
  let* ai' := if ua then infoPgSet (fst ai) version systemId else Ok (fst ai) in
  let* bi' := if ub then infoPgSet (fst bi) version systemId else Ok (fst bi) in
  let* b' := curPg bi' in
  let* a' := curPg ai' in
  let* _ := checkStanzaInfo a' b' in
  Ok ((if ua then saveArchive ai' (snd ai) else []) ++ (if ub then saveBackup bi' (snd bi) else [])).

(** create.c:44-151, upgrade.c:39-99: the repositories in order, up to the first error: what they are afterwards, and the outcome *)
Fixpoint eachRepo (f : nat -> repo -> res (list (fileId * file))) (idx : nat) (rs : list repo) : list repo * res unit :=
  match rs with
  | [] => ([], Ok tt)
  | r :: rs' => match f idx r with
                | Ok ws => let (out, e) := eachRepo f (S idx) rs' in (puts r ws :: out, e)
                | Err e => (r :: rs', Err e)
                | UB => (r :: rs', UB)
                end
  end.
(** create.c:27-153 cmdStanzaCreate, upgrade.c:27-101 cmdStanzaUpgrade; [stopped] is whether lockStopTest throws (ControlModel) *)
Definition cmdStanzaCreate (stopped : bool) (version systemId : Z) (keys : nat -> str * str) (rs : list repo) : list repo * res unit :=
  if stopped then (rs, Err EOther) else eachRepo (fun n => createRepo version systemId (fst (keys n)) (snd (keys n))) 0 rs.
Definition cmdStanzaUpgrade (stopped : bool) (version systemId : Z) (rs : list repo) : list repo * res unit :=
  if stopped then (rs, Err EOther) else eachRepo (fun _ => upgradeRepo version systemId) 0 rs.
