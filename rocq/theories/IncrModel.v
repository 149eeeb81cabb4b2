(** Building an incremental backup and copying files.  Models manifestBuildValidate, manifestDeltaCheck and manifestBuildIncr
    (src/info/manifest/manifest.c), backupFile (src/command/backup/file.c.inc), backupJobResult and the part of backupProcess that removes files
    (src/command/backup/process.c.inc), backupFileRepoPath (src/command/backup/common.c) and the label and reference list of a manifest.

    Simplifications: of a manifest only what decides about copying and references is modelled (page checksum results, owners and modes are
    copied as they are); a job is done in one step, the parameters of a job being those of the manifest when the queues were built (a file is in
    one job only, JobProps.v); what the filters make of a file is a parameter ([image]); failing system calls are not modelled. *)
From Verif Require Import Base Str.
Open Scope Z_scope.

(** manifest.h ManifestFile *)
Record bfile := mkBfile {
  bfName : str; bfCopy : bool; bfDelta : bool; bfResume : bool; bfSize : Z; bfSizeOriginal : Z; bfTimestamp : Z;
  bfChecksum : option (list Z); bfSizeRepo : Z; bfRepoChecksum : option (list Z); bfReference : option str; bfBundleId : Z; bfBundleOffset : Z;
  bfBlockSize : Z; bfBlockChecksumSize : Z; bfMapSize : Z }.
(** manifest.h ManifestData and Manifest; the compression type is given by its extension *)
Record manifest := mkManifest {
  mLabel : str; mPrior : option str; mReferences : list str; mFull : bool; mDelta : bool; mOnline : bool; mCopyStart : Z;
  mArchiveStop : option str; mCompressExt : str; mFiles : list bfile }.

(** * Manifest *)
(** lstFind by name, in a list of files with different names *)
Definition fileFind (name : str) (files : list bfile) : option bfile := find (fun f => strEqb (bfName f) name) files.

(** manifest.c:308-363 manifestBuildValidate *)
Definition buildValidate (m : manifest) (delta : bool) (copyStart : Z) (compressExt : str) : manifest :=
  mkManifest (mLabel m) (mPrior m) (mReferences m) (mFull m)
    (delta || existsb (fun f => copyStart <? bfTimestamp f) (mFiles m))
    (mOnline m) (copyStart + if mOnline m then 1 else 0) (mArchiveStop m) compressExt (mFiles m).

(** manifest.c:366-418 manifestDeltaCheck: is delta enabled? *)
Definition deltaCheck (files prior : list bfile) : bool :=
  existsb (fun f => match fileFind (bfName f) prior with
                    | None => false
                    | Some p => (bfTimestamp f <? bfTimestamp p) || (negb (bfSizeOriginal f =? bfSizeOriginal p) && (bfTimestamp f =? bfTimestamp p))
                    end) files.

(** manifest.c:485-562: one file *)
Definition buildIncrFile (delta : bool) (priorLabel : str) (prior : list bfile) (f : bfile) : bfile :=
  match (if bfCopy f then fileFind (bfName f) prior else None) with
  | None => f
  | Some p =>
      let sizeEqual := bfSize f =? bfSize p in
      let preserve := (0 <? bfMapSize p) && (bfBlockSize p <=? bfSize f) in
      let fdelta := delta && sizeEqual && negb (bfSize f =? 0) in
      let copy := bfCopy f in
      let copy := if (bfSize f =? 0) && (bfSize p =? 0) then false else copy in
      let copy := if negb fdelta && sizeEqual && (bfTimestamp f =? bfTimestamp p) then false else copy in
      if sizeEqual || preserve then
        mkBfile (bfName f) copy fdelta (bfResume f) (bfSize p) (bfSizeOriginal f) (bfTimestamp f) (bfChecksum p) (bfSizeRepo p) (bfRepoChecksum p)
          (Some match bfReference p with Some r => r | None => priorLabel end) (bfBundleId p) (bfBundleOffset p) (bfBlockSize p) (bfBlockChecksumSize p) (bfMapSize p)
      else
        mkBfile (bfName f) copy fdelta (bfResume f) (bfSize f) (bfSizeOriginal f) (bfTimestamp f) (bfChecksum f) (bfSizeRepo f) (bfRepoChecksum f)
          (bfReference f) (bfBundleId f) (bfBundleOffset f) (bfBlockSize f) (bfBlockChecksumSize f) (bfMapSize f)
  end.
(** manifest.c:421-568 manifestBuildIncr; [archiveStart] is NULL for offline backups *)
Definition timelineDiffers (archiveStart archiveStop : option str) : bool :=
  match archiveStart, archiveStop with Some a, Some b => negb (strEqb (firstn 8 a) (firstn 8 b)) | _, _ => false end.
Definition buildIncr (m prior : manifest) (archiveStart : option str) : manifest :=
  let delta := if timelineDiffers archiveStart (mArchiveStop prior) then true
               else if negb (Bool.eqb (mOnline prior) (mOnline m)) then true else mDelta m in
  let delta := if delta then true else deltaCheck (mFiles m) (mFiles prior) in
  mkManifest (mLabel m) (Some (mLabel prior)) (mReferences prior) false delta (mOnline m) (mCopyStart m) (mArchiveStop m) (mCompressExt m)
    (map (buildIncrFile delta (mLabel prior) (mFiles prior)) (mFiles m)).
(** manifest.c:846-865 manifestBackupLabelSet *)
Definition labelSet (m : manifest) (label : str) : manifest :=
  mkManifest label (mPrior m) (mReferences m ++ [label]) (mFull m) (mDelta m) (mOnline m) (mCopyStart m) (mArchiveStop m) (mCompressExt m) (mFiles m).
(** manifestBuildComplete, manifest.c:571ff: of what is set only the stop segment is used later *)
Definition buildComplete (m : manifest) (archiveStop : option str) (files : list bfile) : manifest :=
  mkManifest (mLabel m) (mPrior m) (mReferences m) (mFull m) (mDelta m) (mOnline m) (mCopyStart m) archiveStop (mCompressExt m) files.

(** * Repository *)
(** common.c:19-45 backupFileRepoPath: the path after STORAGE_REPO_BACKUP.  Bundles are in a path that no manifest file is in. *)
Inductive rpath := RFile (label file : str) | RBundle (label : str) (bundleId : Z).
Definition rpath_eq (a b : rpath) : bool :=
  match a, b with
  | RFile l f, RFile l' f' => strEqb l l' && strEqb f f'
  | RBundle l i, RBundle l' i' => strEqb l l' && (i =? i')
  | _, _ => false
  end.
Definition pgbi : str := [46;112;103;98;105].
Definition repoPath (label name : str) (bundleId : Z) (compressExt : str) (blockIncr : bool) : rpath :=
  if bundleId =? 0 then RFile label (name ++ if blockIncr then pgbi else compressExt) else RBundle label bundleId.
Definition repo := rpath -> option (list Z).
Definition repoPut (r : repo) (p : rpath) (v : option (list Z)) : repo := fun q => if rpath_eq p q then v else r q.

(** * Copy of files *)
Inductive copyResult := CopyCopy | CopyChecksum | CopyTruncate | CopySkip | CopyNoOp.
Record bres := mkBres {
  brName : str; brResult : copyResult; brInvalid : bool; brCopySize : Z; brChecksum : option (list Z); brRepoChecksum : option (list Z);
  brOffset : Z; brRepoSize : Z; brMapSize : Z }.
(** What a job sees of a file: the file may be missing, may be read once for the checksum and once for the copy, and may have changed in
    between; [reEof] says that the end is found by the read of the first buffer; [rePgControl] is global/pg_control, which must exist;
    [reExact] is pgFileCopyExactSize. *)
Record readEnv := mkReadEnv { reDelta : option (list Z); reCopy : option (list Z); reEof : bool; rePgControl : bool; reExact : bool }.

(** What the filters of a backup make of a file: what is stored (after block incremental, compression and encryption) and the size of its block
    map, both depending on the bundle, the offset in the bundle, and the file in the manifest; are there filters for compression or encryption,
    and is block incremental enabled (cfgOptRepoBlock)? *)
Record bcfg := mkBcfg { bcImage : Z -> Z -> bfile -> list Z -> list Z; bcMapSize : Z -> Z -> bfile -> list Z -> Z; bcFiltered : bool; bcBlock : bool }.

Section Backup.
  Variable sha1 : list Z -> list Z.
  Variable cfg : bcfg.

  (** process.c.inc:650: is the file stored as block incremental? *)
  Definition isBlock (f : bfile) : bool := bcBlock cfg && (0 <? bfBlockSize f).
  (** .ignoreMissing and .limit; pg_control is copied without a limit (file.c.inc:339-340) *)
  Definition pgRead (env : readEnv) (f : bfile) (limit : bool) (c : option (list Z)) : res (option (list Z)) :=
    match c with
    | None => if rePgControl env then Err EFileMissing else Ok None
    | Some c => Ok (Some (if limit then firstn (Z.to_nat (bfSizeOriginal f)) c else c))
    end.
  Definition sumEqb (a : option (list Z)) (b : list Z) : bool := match a with Some a => strEqb a b | None => false end.
  Definition zlen (l : list Z) : Z := Z.of_nat (length l).

  (** file.c.inc:182-310: the checks before the copy, for one file *)
  Definition checkFile (r : repo) (path : rpath) (f : bfile) (env : readEnv) : res (bres * repo) :=
    let copy := mkBres (bfName f) CopyCopy false 0 None None 0 0 0 in
    let* (result, match_) :=
      if bfDelta f then
        let* c := pgRead env f (reExact env) (reDelta env) in
        match c with
        | None => Ok (mkBres (bfName f) CopySkip false 0 None None 0 0 0, false)
        | Some c =>
            if (bfSize f =? zlen c) && sumEqb (bfChecksum f) (sha1 c) then
              Ok (match bfReference f with Some _ => mkBres (bfName f) CopyNoOp false (bfSize f) (bfChecksum f) None 0 0 0 | None => copy end, true)
            else Ok (copy, false)
        end
      else Ok (copy, false) in
    if bfResume f then
      match brResult result with
      | CopySkip => Ok (result, repoPut r path None)
      | _ =>
          if negb (bfDelta f) || match_ then
            match r path with
            | None => Err EFileMissing
            | Some b =>
                if (bfSizeRepo f =? zlen b) && sumEqb (match bfRepoChecksum f with Some s => Some s | None => bfChecksum f end) (sha1 b) then
                  Ok (mkBres (bfName f) CopyChecksum false (bfSize f) (bfChecksum f) None 0 0 0, r)
                else Ok (mkBres (brName result) (brResult result) true (brCopySize result) (brChecksum result) (brRepoChecksum result) 0 0 0, r)
            end
          else Ok (result, r)
      end
    else Ok (result, r).
  Fixpoint checkFiles (r : repo) (path : rpath) (files : list (bfile * readEnv)) : res (list bres * repo) :=
    match files with
    | [] => Ok ([], r)
    | (f, env) :: rest =>
        let* (b, r) := checkFile r path f env in
        let* (l, r) := checkFiles r path rest in Ok (b :: l, r)
    end.

  (** file.c.inc:320-552: HASH_TYPE_SHA1_ZERO_BUF is the checksum of the empty file; the copy of one file; [written] is what has been written to the repository file, None if it has not been opened *)
  Definition copyFile (bundleId : Z) (f : bfile) (env : readEnv) (b : bres) (written : option (list Z)) (offset : Z) : res (bres * option (list Z) * Z) :=
    match brResult b with
    | CopyCopy =>
        let* c := pgRead env f (reExact env && negb (rePgControl env)) (reCopy env) in
        match c with
        | None => Ok (mkBres (brName b) CopySkip (brInvalid b) (brCopySize b) (brChecksum b) None 0 0 0, written, offset)
        | Some c =>
            let eof := reEof env || (zlen c =? 0) in
            if eof && negb (bundleId =? 0) && (zlen c =? 0) then
              Ok (mkBres (brName b) CopyTruncate (brInvalid b) 0 (Some (sha1 [])) None 0 0 0, written, offset)
            else if eof && (match bfReference f with Some _ => true | None => false end) && (zlen c =? bfSize f) && sumEqb (bfChecksum f) (sha1 c) then
              Ok (mkBres (brName b) CopyNoOp (brInvalid b) (zlen c) (bfChecksum f) None 0 0 0, written, offset)
            else
              let i := bcImage cfg bundleId offset f c in
              Ok (mkBres (brName b) CopyCopy (brInvalid b) (zlen c) (Some (sha1 c)) (if bcFiltered cfg || isBlock f then Some (sha1 i) else None) offset (zlen i)
                    (if isBlock f then bcMapSize cfg bundleId offset f c else 0),
                  Some (match written with Some w => w | None => [] end ++ i), offset + zlen i)
        end
    | _ => Ok (b, written, offset)
    end.
  Fixpoint copyFiles (bundleId : Z) (files : list (bfile * readEnv)) (results : list bres) (written : option (list Z)) (offset : Z) :
      res (list bres * option (list Z)) :=
    match files, results with
    | (f, env) :: files, b :: results =>
        let* (b, written, offset) := copyFile bundleId f env b written offset in
        let* (l, written) := copyFiles bundleId files results written offset in Ok (b :: l, written)
    | _, _ => Ok ([], written)
    end.
  (** file.c.inc:149-561 backupFile *)
  Definition backupFile (r : repo) (path : rpath) (bundleId : Z) (files : list (bfile * readEnv)) : res (list bres * repo) :=
    let* (l, r) := checkFiles r path files in
    let* (l, written) := copyFiles bundleId files l None 0 in
    Ok (l, match written with Some w => repoPut r path (Some w) | None => r end).

  (** process.c.inc:101-324 backupJobResult: one result; the files to remove are collected *)
  Definition jobUpdate (bundleId : Z) (b : bres) (f : bfile) : bfile :=
    mkBfile (bfName f) (bfCopy f) (bfDelta f) (bfResume f) (brCopySize b) (bfSizeOriginal f) (bfTimestamp f) (brChecksum b) (brRepoSize b) (brRepoChecksum b)
      None (match brResult b with CopyTruncate => 0 | _ => bundleId end) (brOffset b) (bfBlockSize f) (bfBlockChecksumSize f) (brMapSize b).
  Definition jobResult (bundleId : Z) (st : list bfile * list str) (b : bres) : list bfile * list str :=
    let (files, remove) := st in
    match brResult b with
    | CopyNoOp | CopyChecksum => (files, remove)
    | CopySkip => (files, remove ++ [brName b])
    | CopyCopy | CopyTruncate => (map (fun f => if strEqb (bfName f) (brName b) then jobUpdate bundleId b f else f) files, remove)
    end.

  (** process.c.inc:655-680: the repository file of a job is that of its bundle or of its first file *)
  Definition jobPath (m : manifest) (bundleId : Z) (files : list (bfile * readEnv)) : rpath :=
    match files with
    | (f, _) :: _ => repoPath (mLabel m) (bfName f) bundleId (mCompressExt m) (isBlock f)
    | [] => RBundle (mLabel m) bundleId
    end.
  Fixpoint processJobs (m : manifest) (jobs : list (Z * list (bfile * readEnv))) (r : repo) (st : list bfile * list str) : res (list bfile * list str * repo) :=
    match jobs with
    | [] => Ok (st, r)
    | (id, files) :: rest =>
        let* (l, r) := backupFile r (jobPath m id files) id files in
        processJobs m rest r (fold_left (jobResult id) l st)
    end.
  (** process.c.inc:770-960: the jobs, then the files removed by the database are removed from the manifest *)
  Definition backupProcess (m : manifest) (jobs : list (Z * list (bfile * readEnv))) (r : repo) : res (list bfile * repo) :=
    let* (files, remove, r) := processJobs m jobs r (mFiles m, []) in
    Ok (filter (fun f => negb (existsb (strEqb (bfName f)) remove)) files, r).

  (** backup.c:186-306 cmdBackup from the label on: manifestBackupLabelSet, backupProcess, manifestBuildComplete *)
  Definition backupRun (m : manifest) (label : str) (archiveStop : option str) (jobs : list (Z * list (bfile * readEnv))) (r : repo) : res (manifest * repo) :=
    let m := labelSet m label in
    let* (files, r) := backupProcess m jobs r in Ok (buildComplete m archiveStop files, r).
End Backup.

(** incr.c.inc:6-152 and backup.c:225-240: the manifest of a full backup, or of a backup based on [prior], whose compression type is used *)
Definition fullManifest (m : manifest) (delta : bool) (copyStart : Z) (compressExt : str) : manifest := buildValidate m delta copyStart compressExt.
Definition incrManifest (m prior : manifest) (delta : bool) (copyStart : Z) (archiveStart : option str) : manifest :=
  buildIncr (buildValidate m delta copyStart (mCompressExt prior)) prior archiveStart.
