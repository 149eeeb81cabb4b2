(** Backup expiration and backup.info reconstruction.

    Models src/command/expire/expire.c and the backup list of src/info/infoBackup.c.

    What is kept of an InfoBackupData (src/info/infoBackup.h): the label, the prior label, the history id of the cluster, the stop
    time and the archive start/stop.  Sizes, options and annotations play no role in these functions and are dropped.
    Logging, cipher specs and memory contexts are not modelled. *)
From Verif Require Import Base Str.
Open Scope Z_scope.

Record backup := mkBackup {
  bkLabel : str; bkPrior : option str; bkPgId : Z; bkTimeStop : Z; bkArchStart : option str; bkArchStop : option str }.

(** * Backup label expressions *)

(** common.h:21 DATE_TIME_REGEX "[0-9]{8}\-[0-9]{6}", matched against the whole of [s]. *)
Definition isDigit (c : Z) : bool := (48 <=? c) && (c <=? 57).
Definition isDateTime (s : str) : bool :=
  Nat.eqb (length s) 15 && forallb isDigit (firstn 8 s) && strEqb (firstn 1 (skipn 8 s)) [45] && forallb isDigit (skipn 9 s).

(** common.c:81-138 backupRegExp(.full = true): "^<date>F$". *)
Definition labelFull (s : str) : bool :=
  Nat.eqb (length s) 16 && isDateTime (firstn 15 s) && strEqb (skipn 15 s) [70].

(** common.c:81-138, the diff/incr part "F\_<date>D" / "F\_<date>I"; [c] is the type character. *)
Definition labelDep (c : Z) (s : str) : bool :=
  Nat.eqb (length s) 33 && labelFull (firstn 16 s) && strEqb (firstn 1 (skipn 16 s)) [95]
  && isDateTime (firstn 15 (skipn 17 s)) && strEqb (skipn 32 s) [c].
Definition labelDiff (s : str) : bool := labelDep 68 s.
Definition labelIncr (s : str) : bool := labelDep 73 s.
Definition labelFullDiff (s : str) : bool := labelFull s || labelDiff s.       (* .full, .differential *)
Definition labelAny (s : str) : bool := labelFull s || labelDiff s || labelIncr s. (* .full, .differential, .incremental *)

(** * The backup list (infoBackup.c) *)

(** infoBackup.c:602-634 infoBackupDataLabelList: labels in list order that match the expression. *)
Definition labelList (rx : str -> bool) (l : list backup) : list str := filter rx (map bkLabel l).
Definition labels (l : list backup) : list str := map bkLabel l.

(** infoBackup.h infoBackupDataByLabel / infoBackupLabelExists: lstFind by label. *)
Definition dataByLabel (l : list backup) (lab : str) : option backup := find (fun b => strEqb (bkLabel b) lab) l.
Definition labelExists (l : list backup) (lab : str) : bool := match dataByLabel l lab with Some _ => true | None => false end.

(** infoBackup.c:578-599 infoBackupDataDelete: the loop index moves on after a removal, so the element that follows a removed one is
    never examined. *)
Fixpoint dataDelete (l : list backup) (lab : str) : list backup :=
  match l with
  | [] => []
  | b :: r =>
      if strEqb (bkLabel b) lab then match r with [] => [] | c :: r' => c :: dataDelete r' lab end
      else b :: dataDelete r lab
  end.

(** infoBackup.c:637-667 infoBackupDataDependentList: one pass over the list, oldest first. *)
Fixpoint depLoop (bs : list backup) (result : list str) : list str :=
  match bs with
  | [] => result
  | b :: r =>
      depLoop r (match bkPrior b with
                 | Some p => if strLstExists result p then result ++ [bkLabel b] else result
                 | None => result
                 end)
  end.
Definition dependentList (l : list backup) (lab : str) : list str := depLoop l [lab].

(** * Storage operations, in the order expire performs them *)
Inductive op :=
| RmManifest (lab : str)        (* remove backup/<lab>/backup.manifest *)
| RmManifestCopy (lab : str)    (* remove backup/<lab>/backup.manifest.copy *)
| LinkLatest (lab : str)        (* repoint the "latest" link *)
| PutInfo (l : list backup)     (* write backup.info *)
| PutInfoCopy (l : list backup) (* write backup.info.copy *)
| RmDir (lab : str).            (* remove the directory backup/<lab> recursively *)

(** expire.c:41-90 expireBackup: (new list, operations, expired labels oldest first). *)
Definition expired := (list backup * list op * list str)%type.
Definition expireBackup (dry : bool) (l : list backup) (lab : str) : expired :=
  let backupList := strLstSortDesc (dependentList l lab) in
  (fold_left dataDelete backupList l,
   (if dry then [] else flat_map (fun x => [RmManifest x; RmManifestCopy x]) backupList),
   strLstSortAsc backupList).

(** The loops that call expireBackup for each label of a list taken before the loop. *)
Fixpoint expireList (dry : bool) (l : list backup) (labs : list str) : expired :=
  match labs with
  | [] => (l, [], [])
  | x :: r =>
      let '(l1, o1, e1) := expireBackup dry l x in
      let '(l2, o2, e2) := expireList dry l1 r in
      (l2, o1 ++ o2, e1 ++ e2)
  end.

(** expire.c:229-275 expireFullBackup; [ret] is 0 when repo-retention-full is not set. *)
Definition expireFull (dry : bool) (ret : nat) (l : list backup) : expired :=
  if (0 <? ret)%nat then
    let cur := labelList labelFull l in
    if (ret <? length cur)%nat then expireList dry l (firstn (length cur - ret) cur) else (l, [], [])
  else (l, [], []).

(** expire.c:172-224 expireDiffBackup; full backups in the list are skipped. *)
Definition expireDiff (dry : bool) (ret : nat) (l : list backup) : expired :=
  if (0 <? ret)%nat then
    let cur := labelList labelFullDiff l in
    if (ret <? length cur)%nat then
      expireList dry l (filter (fun x => negb (labelFull x)) (firstn (length cur - ret) cur))
    else (l, [], [])
  else (l, [], []).

(** expire.c:310-325: newest to oldest, the first full backup that stopped before [minTs].  A label that is not in the list would make
    the code dereference NULL (UB). *)
Fixpoint findMet (l : list backup) (minTs : Z) (labs : list str) : res (option str) :=
  match labs with
  | [] => Ok None
  | x :: r =>
      match dataByLabel l x with
      | None => UB
      | Some b => if bkTimeStop b <? minTs then Ok (Some (bkLabel b)) else findMet l minTs r
      end
  end.

(** expire.c:335-348: expire the first entry until it is [met].  infoBackupData(0) on an empty list is an AssertError.  The fuel is
    one more than the length of the list; each round removes at least the first entry, running out of fuel is [Err EOther]. *)
Fixpoint timeLoop (fuel : nat) (dry : bool) (l : list backup) (met : str) : res (expired * nat) :=
  match l with
  | [] => Err EAssert
  | b :: _ =>
      if strEqb (bkLabel b) met then Ok ((l, [], []), O)
      else
        match fuel with
        | O => Err EOther
        | S f =>
            let '(l1, o1, e1) := expireBackup dry l (bkLabel b) in
            let* ((l2, o2, e2), n) := timeLoop f dry l1 met in
            Ok ((l2, o1 ++ o2, e1 ++ e2), S n)
        end
  end.

(** expire.c:280-360 expireTimeBasedBackup.  The last component is the number of full backups retained when retention was met: the code
    sets archive retention to it if archive retention is of type full and not set (expire.c:351-357). *)
Definition expireTime (dry : bool) (minTs : Z) (l : list backup) : res (expired * option nat) :=
  let cur := strLstSortAsc (labelList labelFull l) in
  let* met := findMet l minTs (rev cur) in
  match met with
  | None => Ok ((l, [], []), None)
  | Some m => let* (e, n) := timeLoop (S (length l)) dry l m in Ok (e, Some (length cur - n)%nat)
  end.

(** expire.c:95-167 expireAdhocBackup.  strLstGet(fullList, 0) on an empty list is an AssertError. *)
Definition expireAdhoc (dry : bool) (l : list backup) (lab : str) : res expired :=
  match strLstSortDesc (labelList labelFull l) with
  | [] => Err EAssert
  | f0 :: rest =>
      let refuse :=
        if strEqb f0 lab then
          match rest with
          | [] => Ok true
          | f1 :: _ =>
              match dataByLabel l lab, dataByLabel l f1 with
              | Some b, Some c => Ok (negb (bkPgId b =? bkPgId c))
              | _, _ => UB
              end
          end
        else Ok false in
      let* r := refuse in
      if (r : bool) then Err EBackupSetInvalid
      else
        match rev l with
        | [] => Err EAssert
        | latest :: _ =>
            let '(l1, o1, e1) := expireBackup dry l lab in
            if labelExists l1 (bkLabel latest) then Ok (l1, o1, e1)
            else
              if dry then Ok (l1, o1, e1)
              else
                match rev l1 with
                | [] => Err EAssert
                | b :: _ => Ok (l1, o1 ++ [LinkLatest (bkLabel b)], e1)
                end
        end
  end.

(** Options of one repository that expire reads. *)
Record expireCfg := mkCfg {
  cDry : bool;              (* dry-run *)
  cSet : option str;        (* --set *)
  cOldest : bool;           (* --oldest *)
  cTime : bool;             (* repo-retention-full-type=time *)
  cRetFull : option nat;    (* repo-retention-full *)
  cRetDiff : option nat;    (* repo-retention-diff *)
  cNow : Z                  (* time(NULL) *)
}.
Definition ret0 (r : option nat) : nat := match r with Some n => n | None => O end.

(** expire.c:1099-1173, the part of cmdExpire that changes the list of one repository.  --oldest keeps one full backup less than there
    are (count based) when there are at least two.  The adhoc-not-found warning is not modelled. *)
Definition expireInfo (c : expireCfg) (l : list backup) : res (expired * option nat) :=
  let fullTotal := length (labelList labelFull l) in
  let eff := cOldest c && (1 <? fullTotal)%nat in
  let time := if eff then false else cTime c in
  let retFull := if eff then Some (fullTotal - 1)%nat else cRetFull c in
  match cSet c with
  | Some lab =>
      if labelExists l lab then let* e := expireAdhoc (cDry c) l lab in Ok (e, None) else Ok ((l, [], []), None)
  | None =>
      let* ((l1, o1, e1), ar) :=
        (if time then
           match retFull with
           | Some d => expireTime (cDry c) (cNow c - Z.of_nat d * 86400) l
           | None => Ok ((l, [], []), None)
           end
         else Ok (expireFull (cDry c) (ret0 retFull) l, None)) in
      let '(l2, o2, e2) := expireDiff (cDry c) (ret0 (cRetDiff c)) l1 in
      Ok ((l2, o1 ++ o2, e1 ++ e2), ar)
  end.

(** * Repository contents as far as backup.info and the expire command look at them *)

(** backup.manifest of a directory (src/info/manifest/manifest.c ManifestData). *)
Record manifest := mkManifest { mfFull : bool; mfData : backup; mfPrior : option str; mfSysId : Z; mfVersion : Z }.
Record backupDir := mkDir { dLabel : str; dManifest : option manifest; dCopy : option manifest }.
Record store := mkStore { stDirs : list backupDir; stInfo : list backup; stInfoCopy : list backup }.
(** History entry of backup.info (infoPg.h InfoPgData). *)
Record pgHist := mkPg { phId : Z; phSysId : Z; phVersion : Z }.

Definition findDir (s : store) (lab : str) : option backupDir := find (fun d => strEqb (dLabel d) lab) (stDirs s).
Definition manifestOf (s : store) (lab : str) : option manifest :=
  match findDir s lab with Some d => dManifest d | None => None end.
Definition copyOf (s : store) (lab : str) : option manifest :=
  match findDir s lab with Some d => dCopy d | None => None end.

(** infoBackup.c:409-522 infoBackupDataAdd: a full backup is entered without prior; the list is sorted by label. *)
Definition dataFromManifest (m : manifest) : backup :=
  let b := mfData m in
  mkBackup (bkLabel b) (if mfFull m then None else mfPrior m) (bkPgId b) (bkTimeStop b) (bkArchStart b) (bkArchStop b).
Definition dataAdd (l : list backup) (m : manifest) : list backup := sortBy bkLabel strLeb (l ++ [dataFromManifest m]).

(** infoBackup.c:767-785 infoBackupSetExists. *)
Definition setExists (l : list backup) (set : str) : bool := existsb (fun b => strBeginsWith (bkLabel b) set) l.

(** infoBackup.c:809-813: sorted listing of backup directories that look like a label. *)
Definition dirList (s : store) : list str := strLstSortAsc (filter labelAny (map dLabel (stDirs s))).

Definition isSome {A} (o : option A) : bool := match o with Some _ => true | None => false end.

(** infoBackup.c:818-841, first loop: drop entries without manifest and their dependents. *)
Fixpoint dropLoop (s : store) (cur : list str) (l : list backup) : list backup :=
  match cur with
  | [] => l
  | lab :: r =>
      let manifestExists := strLstExists (dirList s) lab && isSome (manifestOf s lab) in
      if negb manifestExists && labelExists l lab then
        dropLoop s r (fold_left dataDelete (strLstSortDesc (dependentList l lab)) l)
      else dropLoop s r l
  end.

(** infoBackup.c:868-883, does the manifest belong to a known cluster and is its prior listed. *)
Definition canAdd (hist : list pgHist) (m : manifest) (l : list backup) : bool :=
  existsb (fun h => (bkPgId (mfData m) =? phId h) && (mfSysId m =? phSysId h) && (mfVersion m =? phVersion h)
                    && match mfPrior m with None => true | Some p => labelExists l p end) hist.

(** infoBackup.c:846-892, second loop: add complete backups found in the repository; [cur] is the list of labels taken after the first
    loop. *)
Fixpoint addLoop (s : store) (hist : list pgHist) (cur : list str) (dirs : list str) (l : list backup) : list backup :=
  match dirs with
  | [] => l
  | lab :: r =>
      if negb (strLstExists cur lab) && (Nat.eqb (length lab) 16 || setExists l (firstn 16 lab)) then
        match manifestOf s lab with
        | Some m => addLoop s hist cur r (if canAdd hist m l then dataAdd l m else l)
        | None => addLoop s hist cur r l
        end
      else addLoop s hist cur r l
  end.

(** infoBackup.c:787-898 infoBackupLoadFileReconstruct after the file was loaded as [l]. *)
Definition reconstruct (s : store) (hist : list pgHist) (l : list backup) : list backup :=
  let l1 := dropLoop s (strLstSortAsc (labels l)) l in
  addLoop s hist (strLstSortAsc (labels l1)) (dirList s) l1.

(** Whether reconstruction called infoBackupDataDelete or infoBackupDataAdd, which mark the list as updated (infoBackup.c:519, 596):
    some listed label had no manifest, or the second loop made the list longer. *)
Definition reconstructUpdated (s : store) (hist : list pgHist) (l : list backup) : bool :=
  existsb (fun lab => negb (strLstExists (dirList s) lab && isSome (manifestOf s lab))) (labels l)
  || negb (Nat.eqb (length (reconstruct s hist l)) (length (dropLoop s (strLstSortAsc (labels l)) l))).

(** Effect of one storage operation. *)
Definition updDir (lab : str) (f : backupDir -> backupDir) (ds : list backupDir) : list backupDir :=
  map (fun d => if strEqb (dLabel d) lab then f d else d) ds.
Definition applyOp (s : store) (o : op) : store :=
  match o with
  | RmManifest lab => mkStore (updDir lab (fun d => mkDir (dLabel d) None (dCopy d)) (stDirs s)) (stInfo s) (stInfoCopy s)
  | RmManifestCopy lab => mkStore (updDir lab (fun d => mkDir (dLabel d) (dManifest d) None) (stDirs s)) (stInfo s) (stInfoCopy s)
  | LinkLatest _ => s
  | PutInfo l => mkStore (stDirs s) l (stInfoCopy s)
  | PutInfoCopy l => mkStore (stDirs s) (stInfo s) l
  | RmDir lab => mkStore (filter (fun d => negb (strEqb (dLabel d) lab)) (stDirs s)) (stInfo s) (stInfoCopy s)
  end.
Definition applyOps (s : store) (os : list op) : store := fold_left applyOp os s.

(** * Directory clean up *)

(** expire.c:851-930 removeExpiredBackup: the labels whose directories are removed, newest first.  manifestLoadFile of the resumable
    backup reads the .copy file (the main manifest does not exist, expire.c:888).  A NULL prior is in no list (lstFind compares with
    strCmp, which orders NULL before every label). *)
Definition removeExpired (s : store) (l : list backup) (adhoc : option str) : list str :=
  let disk := strLstSortDesc (filter labelAny (map dLabel (stDirs s))) in
  let skip :=
    match disk with
    | [] => false
    | d0 :: _ =>
        match manifestOf s d0, copyOf s d0 with
        | None, Some m =>
            match adhoc with
            | Some a =>
                if strBeginsWith d0 (firstn 16 a) then
                  match mfPrior m with
                  | Some p => labelExists l p
                  | None => false
                  end
                else true
            | None => true
            end
        | _, _ => false
        end
    end in
  filter (fun x => negb (strLstExists (labels l) x)) (if skip then tl disk else disk).

(** Removing a directory tree deletes its files and then the directory; for the loader only the manifest, its copy and the directory
    itself matter.  Simplification: the order of the other files is not modelled. *)
Definition removeDirOps (lab : str) : list op := [RmManifest lab; RmManifestCopy lab; RmDir lab].

(** expire.c:1084-1186 for one repository up to and including removeExpiredBackup: all storage operations in order.
    [stInfo s] is the content of backup.info; infoBackupSaveFile (infoBackup.c:901-937) writes only when the list was changed since it
    was loaded, which is when reconstruction changed it or a backup was expired.
    Not modelled: an exception in the middle of the command behaves like the end of the operations (a crash) for this repository. *)
Definition expireOps (c : expireCfg) (s : store) (hist : list pgHist) : res (list op * list backup) :=
  let l0 := reconstruct s hist (stInfo s) in
  let* ((l1, o1, e1), _) := expireInfo c l0 in
  let updated := reconstructUpdated s hist (stInfo s) || negb (Nat.eqb (length e1) 0) in
  if cDry c then Ok ([], l1)
  else
    let o2 := if updated then [PutInfo l1; PutInfoCopy l1] else [] in
    let s2 := applyOps s (o1 ++ o2) in
    let o3 := flat_map removeDirOps (removeExpired s2 l1 (cSet c)) in
    Ok (o1 ++ o2 ++ o3, l1).
