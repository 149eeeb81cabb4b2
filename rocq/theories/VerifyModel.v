(** The verify command.  Models src/command/verify/verify.c:139-1843 and src/command/verify/file.c.

    Storage does not change while the command runs: what is listed, the header of a WAL file, the loading of manifests and the check of a file are functions.
    Log messages, the text of the report (verifyRender) and memory contexts are left out.  A compression type is given by its extension.  Jobs run in other
    processes: they are given out by the callback and their results are processed one by one, in any order ([vstep]).  Counters are numbers without a bound. *)
From Coq Require Import String.
From Verif Require Import Base Str NumModel LsnModel EncodeModel RegNameModel ResumeModel LinkCheckModel.
Open Scope Z_scope.
Open Scope list_scope.

(** file.h VerifyResult *)
Inductive vres := VOk | VMissing | VChecksum | VSize | VOther.
Definition vresEqb (a b : vres) : bool := match a, b with VOk, VOk | VMissing, VMissing | VChecksum, VChecksum | VSize, VSize | VOther, VOther => true | _, _ => false end.
(** The cipher of a job: none, of the archive, or of the manifest of a backup *)
Inductive vcipher := VNone | VArchive | VManifest (label : str).
(** The key and parameters of a job; [vjPart] is offset and limit *)
Record vjob := mkVjob { vjKey : str; vjPath : str; vjPart : option (Z * Z); vjExt : str; vjSum : list Z; vjSize : Z; vjCipher : vcipher }.

(** storage/helper.h STORAGE_REPO_ARCHIVE and STORAGE_REPO_BACKUP *)
Definition repoArchive : str := txt "<REPO:ARCHIVE>".
Definition repoBackup : str := txt "<REPO:BACKUP>".
Definition slashed (a b : str) : str := a ++ 47 :: b.

(** verify.c:79-83 *)
Record vbad := mkVbad { vbName : str; vbWhy : vres }.
(** verify.c:71-76 *)
Record vrange := mkVrange { vrStart : str; vrStop : str; vrBad : list vbad }.
(** verify.c:61-68 *)
Record varch := mkVarch { vaId : str; vaTotal : Z; vaValid : Z; vaSize : Z; vaRanges : list vrange }.
(** verify.c:86-92 *)
Inductive vstatus := SValid | SInvalid | SMissing | SProgress.
(** verify.c:94-108, without what is only reported *)
Record vback := mkVback { vkLabel : str; vkStatus : vstatus; vkDone : bool; vkManifest : Z; vkVerify : Z; vkValid : Z; vkBad : list vbad }.
(** The part of ManifestFile and ManifestData that is used (info/manifest/manifest.h) *)
Record vfile := mkVfile { vfName : str; vfSize : Z; vfRef : option str; vfBundle : Z; vfOffset : Z; vfSizeRepo : Z; vfSumRepo : option (list Z); vfSum : list Z; vfBlock : bool }.
Record vman := mkVman { vmFiles : list vfile; vmBundle : bool; vmExt : str; vmPg : Z * Z * Z; vmRefs : list str; vmWal : option (str * str) }.
(** verify.c:111-131.  [vdMan] is the manifest with its files from manifestFileIdx on; [vdFilter] is enableArchiveFilter with the range. *)
Record vdata := mkVdata { vdIds : list str; vdPaths : list str; vdFiles : list str; vdBackups : list str; vdMan : option (vman * list vfile); vdCurrent : option str;
  vdBackupNow : bool; vdErrors : Z; vdArch : list varch; vdBack : list vback; vdFilter : option (option (str * str)) }.
(** Storage: WAL paths of an archive id, WAL files of a path, the segment size in the header of a WAL file, the two copies of a manifest (an error, or the manifest),
    and the history of the database *)
Record vworld := mkVworld { vwPaths : str -> list str; vwFiles : str -> str -> list str; vwWalSize : str -> res Z; vwMain : str -> res vman; vwCopy : str -> res vman;
  vwHistory : list (Z * Z * Z) }.

(** * WAL ranges, verify.c:539-636 *)
Definition segOf (f : str) : str := firstn 24 f.
(** strEq(strSubN(stop, 0, 8), strSubN(segment, 0, 8)) *)
Definition sameTimeline (a b : str) : bool := strEqb (firstn 8 a) (firstn 8 b).
Fixpoint lastOf {A} (l : list A) : option A := match l with [] => None | [a] => Some a | _ :: r => lastOf r end.
Fixpoint setLast {A} (f : A -> A) (l : list A) : list A := match l with [] => [] | [a] => [f a] | a :: r => a :: setLast f r end.
(** The loop: [ranges], whether there is a current range (the last one), the files kept and the errors.  [skip] is the segment whose duplicates are being removed. *)
Fixpoint rangeLoop (size : Z) (skip : option str) (files : list str) (ranges : list vrange) (cur : bool) (kept : list str) (errors : Z) : res (list vrange * list str * Z) :=
  match files with
  | [] => Ok (ranges, kept, errors)
  | f :: r =>
      if match skip with Some s => strEqb s (segOf f) | None => false end then rangeLoop size skip r ranges cur kept errors
      else if match r with g :: _ => strEqb (segOf f) (segOf g) | [] => false end then rangeLoop size (Some (segOf f)) r ranges cur kept (errors + 1)
      else
        let* next := match cur, lastOf ranges with true, Some x => let* n := walSegmentNext (vrStop x) size in Ok (strEqb n (segOf f)) | _, _ => Ok false end in
        rangeLoop size None r (if next then setLast (fun x => mkVrange (vrStart x) (segOf f) (vrBad x)) ranges else ranges ++ [mkVrange (segOf f) (segOf f) []]) true (kept ++ [f]) errors
  end.
Definition createRanges (a : varch) (files : list str) : res (varch * list str * Z) :=
  let cur := match lastOf (vaRanges a), files with Some x, f :: _ => sameTimeline (vrStop x) (segOf f) | _, _ => false end in
  let* x := rangeLoop (vaSize a) None files (vaRanges a) cur [] 0 in
  let '(ranges, kept, errors) := x in
  Ok (mkVarch (vaId a) (vaTotal a) (vaValid a) (vaSize a) ranges, kept, errors).

(** * verify.c:717-919 verifyArchive *)
(** verify.c:785-816 *)
Fixpoint dropBefore (start : str) (l : list str) : list str := match l with [] => [] | f :: r => if strLtb (segOf f) start then dropBefore start r else l end.
Fixpoint dropAfter (stop : str) (l : list str) : list str :=
  match l with [] => [] | f :: r => match dropAfter stop r with [] => if strLtb stop (segOf f) then [] else [f] | k => f :: k end end.
Definition filterWal (o : option (option (str * str))) (l : list str) : list str :=
  match o with None => l | Some None => [] | Some (Some (start, stop)) => dropAfter stop (dropBefore start l) end.
(** verify.c:848-877 *)
Definition walJob (id path f : str) (size : Z) : res vjob :=
  let name := slashed repoArchive (slashed id (slashed path f)) in
  let* sum := decodeHex true (firstn 40 (skipn 25 f)) in
  Ok (mkVjob (slashed id name) name None (compressExtOf name) sum size VArchive).
Section World.
Variable w : vworld.
(** verify.c:769-845: the files of the path are listed and their ranges made *)
Definition loadPath (filter : option (option (str * str))) (path : str) (a : varch) : res (list str * varch * Z) :=
  match filterWal filter (strLstSortAsc (vwFiles w (vaId a) path)) with
  | [] => Ok ([], a, 0)
  | f :: r =>
      let* size := if vaSize a =? 0 then vwWalSize w (slashed repoArchive (slashed (vaId a) (slashed path f))) else Ok (vaSize a) in
      let a := mkVarch (vaId a) (vaTotal a + Z.of_nat (length (f :: r))) (vaValid a) size (vaRanges a) in
      let* x := createRanges a (f :: r) in
      let '(a, kept, errors) := x in
      Ok (kept, a, errors)
  end.
(** verify.c:765-901, the loop over paths: the job, the paths and files left, the result of the archive id, errors *)
Fixpoint pathLoop (filter : option (option (str * str))) (paths files : list str) (a : varch) (errors : Z) : res (option vjob * list str * list str * varch * Z) :=
  match paths with
  | [] => Ok (None, [], files, a, errors)
  | p :: ps =>
      let* x := match files with [] => let* y := loadPath filter p a in let '(l, a, e) := y in Ok (l, a, errors + e) | _ => Ok (files, a, errors) end in
      let '(files, a, errors) := x in
      match files with
      | f :: fs => let* j := walJob (vaId a) p f (vaSize a) in Ok (Some j, match fs with [] => ps | _ => paths end, fs, a, errors)
      | [] => pathLoop filter ps [] a errors
      end
  end.
(** verify.c:727-912, the loop over archive ids.  Without a job there is no path left. *)
Fixpoint idLoop (ids : list str) (d : vdata) : res (option vjob * vdata) :=
  match ids with
  | [] => Ok (None, mkVdata [] (vdPaths d) (vdFiles d) (vdBackups d) (vdMan d) (vdCurrent d) (vdBackupNow d) (vdErrors d) (vdArch d) (vdBack d) (vdFilter d))
  | id :: r =>
      let known := match lastOf (vdArch d) with Some a => strEqb (vaId a) id | None => false end in
      let arch := if known then vdArch d else vdArch d ++ [mkVarch id 0 0 0 []] in
      let paths := if known then vdPaths d else strLstSortAsc (vwPaths w id) in
      match paths, lastOf arch with
      | _ :: _, Some a =>
          let* x := pathLoop (vdFilter d) paths (vdFiles d) a (vdErrors d) in
          let '(j, paths, files, a, errors) := x in
          let d := mkVdata (match paths with [] => r | _ => ids end) paths files (vdBackups d) (vdMan d) (vdCurrent d) (vdBackupNow d) errors (setLast (fun _ => a) arch) (vdBack d) (vdFilter d) in
          match j with Some j => Ok (Some j, d) | None => idLoop r d end
      | _, _ => idLoop r (mkVdata r paths (vdFiles d) (vdBackups d) (vdMan d) (vdCurrent d) (vdBackupNow d) (vdErrors d) arch (vdBack d) (vdFilter d))
      end
  end.
Definition verifyArchive (d : vdata) : res (option vjob * vdata) := idLoop (vdIds d) d.

(** * verify.c:364-487 verifyManifestFile: the manifest, the status and errors *)
Definition pgEqb (a b : Z * Z * Z) : bool := let '(a1, a2, a3) := a in let '(b1, b2, b3) := b in (a1 =? b1) && (a2 =? b2) && (a3 =? b3).
Definition isMissing {A} (r : res A) : bool := match r with Err EFileMissing => true | _ => false end.
Definition verifyManifestFile (label : str) (current : bool) : option vman * vstatus * Z :=
  let '(m, status) :=
    match vwMain w label with
    | Ok m => (Some m, SValid)
    | main =>
        if current && isMissing main then (None, SProgress)
        else match vwCopy w label with Ok m => (Some m, SValid) | copy => (None, if isMissing main && isMissing copy then SMissing else SValid) end
    end in
  let m := match m with Some x => if existsb (pgEqb (vmPg x)) (vwHistory w) then Some x else None | None => None end in
  match m, status with None, SValid => (None, SInvalid, 1) | _, _ => (m, status, 0) end.

(** * verify.c:925-1169 verifyBackup *)
(** backup/common.c:20-45 *)
Definition repoPath (label : str) (f : vfile) (ext : str) : str :=
  slashed repoBackup (slashed label (if vfBundle f =? 0 then vfName f ++ (if vfBlock f then txt ".pgbi" else ext) else slashed (txt "bundle") (cvtUIntToZ (vfBundle f)))).
(** verify.c:1058-1108 *)
Definition fileJob (label of : str) (m : vman) (f : vfile) : vjob :=
  let path := repoPath of f (vmExt m) in
  let part := if vfBundle f =? 0 then None else Some (vfOffset f, vfSizeRepo f) in
  match vfSumRepo f with
  | Some s => mkVjob (slashed label path) path part [] s (vfSizeRepo f) VNone
  | None => mkVjob (slashed label path) path part (vmExt m) (vfSum f) (vfSize f) (VManifest label)
  end.
Definition findBack (l : list vback) (label : str) : option vback := find (fun b => strEqb (vkLabel b) label) l.
Definition addBad (b : vback) (x : vbad) : vback := mkVback (vkLabel b) SInvalid (vkDone b) (vkManifest b) (vkVerify b) (vkValid b) (vkBad b ++ [x]).
Definition addValid (b : vback) : vback := mkVback (vkLabel b) (vkStatus b) (vkDone b) (vkManifest b) (vkVerify b) (vkValid b + 1) (vkBad b).
Definition addVerify (b : vback) : vback := mkVback (vkLabel b) (vkStatus b) (vkDone b) (vkManifest b) (vkVerify b + 1) (vkValid b) (vkBad b).
(** verify.c:993-1118, one file.  [all] are the results before this one; the result itself is not done. *)
Definition checkFile (m : vman) (all : list vback) (b : vback) (f : vfile) : option vjob * vback :=
  let b := addVerify b in
  if negb (vfSize f =? 0) || negb (vmBundle m) then
    match vfRef f with
    | None => (Some (fileJob (vkLabel b) (vkLabel b) m f), b)
    | Some r =>
        match findBack (all ++ [b]) r with
        | Some p =>
            if vkDone p then
              match find (fun x => strEqb (vbName x) (slashed r (vfName f ++ vmExt m))) (vkBad p) with
              | Some x => (None, addBad b x)
              | None => (None, addValid b)
              end
            else (Some (fileJob (vkLabel b) r m f), b)
        | None => (Some (fileJob (vkLabel b) r m f), b)
        end
    end
  else (None, addValid b).
(** verify.c:989-1139, the loop over files until there is a job *)
Fixpoint fileLoop (m : vman) (all : list vback) (files : list vfile) (b : vback) : option vjob * list vfile * vback :=
  match files with
  | [] => (None, [], b)
  | f :: r => match checkFile m all b f with (Some j, b) => (Some j, r, b) | (None, b) => fileLoop m all r b end
  end.
Definition newBack (label : str) (s : vstatus) (n : Z) : vback := mkVback label s false n 0 0 [].
Definition setStatus (s : vstatus) (b : vback) : vback := mkVback (vkLabel b) s (vkDone b) (vkManifest b) (vkVerify b) (vkValid b) (vkBad b).
(** verify.c:935-1164, the loop over backups *)
Fixpoint backupLoop (backups : list str) (d : vdata) : res (option vjob * vdata) :=
  match backups with
  | [] => Ok (None, mkVdata (vdIds d) (vdPaths d) (vdFiles d) [] (vdMan d) (vdCurrent d) (vdBackupNow d) (vdErrors d) (vdArch d) (vdBack d) (vdFilter d))
  | label :: r =>
      let known := match lastOf (vdBack d) with Some b => strEqb (vkLabel b) label | None => false end in
      let current := match vdCurrent d with Some c => strEqb c label | None => false end in
      let '(man, back, errors) :=
        if known then (vdMan d, vdBack d, 0)
        else let '(m, s, e) := verifyManifestFile label current in
             match m with
             | Some m => (Some (m, vmFiles m), vdBack d ++ [newBack label s (Z.of_nat (length (vmFiles m)))], e)
             | None => (None, vdBack d ++ [newBack label s 0], e)
             end in
      let next man back errors l := mkVdata (vdIds d) (vdPaths d) (vdFiles d) l man (vdCurrent d) (vdBackupNow d) (vdErrors d + errors) (vdArch d) back (vdFilter d) in
      match man, lastOf back with
      | None, _ => if known then UB else backupLoop r (next None back errors r)
      | Some (m, []), _ => backupLoop r (next None (setLast (setStatus SInvalid) back) (errors + 1) r)
      | Some (m, files), Some b =>
          let '(j, todo, b) := fileLoop m (removelast back) files b in
          let d := next (match todo with [] => None | _ => Some (m, todo) end) (setLast (fun _ => b) back) errors (match todo with [] => r | _ => backups end) in
          match j with Some j => Ok (Some j, d) | None => backupLoop r d end
      | _, None => UB
      end
  end.
Definition verifyBackup (d : vdata) : res (option vjob * vdata) := backupLoop (vdBackups d) d.

(** verify.c:1175-1204 *)
Definition verifyCallback (d : vdata) : res (option vjob * vdata) :=
  let* x := if vdBackupNow d then Ok (None, d) else verifyArchive d in
  let '(j, d) := x in
  let now := vdBackupNow d || match vdIds d with [] => true | _ => false end in
  let d := mkVdata (vdIds d) (vdPaths d) (vdFiles d) (vdBackups d) (vdMan d) (vdCurrent d) now (vdErrors d) (vdArch d) (vdBack d) (vdFilter d) in
  match j with Some j => Ok (Some j, d) | None => if now then verifyBackup d else Ok (None, d) end.
End World.

(** * The result of a job, verify.c:1740-1843 *)
(** verify.c:1239-1262; [archive] is whether the type of the file is <REPO:ARCHIVE> *)
Definition logInvalid (archive : bool) (r : vres) : Z := if archive && vresEqb r VMissing then 0 else 1.
(** verify.c:1341-1374 *)
Fixpoint addBadWal (x : vbad) (seg : str) (l : list vrange) : list vrange :=
  match l with [] => [] | r :: t => if strLtb (vrStop r) seg then r :: addBadWal x seg t else mkVrange (vrStart r) (vrStop r) (vrBad r ++ [x]) :: t end.
(** archive/common.c:239-248 *)
Fixpoint afterDash (s : str) : str := match s with [] => [] | c :: r => if c =? 45 then r else afterDash r end.
Definition sameId (a b : str) : bool := match cvtZToInt 10 (afterDash a), cvtZToInt 10 (afterDash b) with Ok x, Ok y => x =? y | _, _ => false end.
Fixpoint updFirst {A} (p : A -> bool) (f : A -> A) (l : list A) : list A := match l with [] => [] | a :: r => if p a then f a :: r else a :: updFirst p f r end.
Definition setDone (b : vback) : vback := mkVback (vkLabel b) (vkStatus b) (vkDone b || (vkVerify b =? vkManifest b)) (vkManifest b) (vkVerify b) (vkValid b) (vkBad b).
(** [o] is the outcome of the job: the result, or an error of the process *)
Definition verifyResult (key : str) (o : res vres) (d : vdata) : res vdata :=
  match splitSlash key with
  | id :: type :: rest =>
      let name := joinSlash rest in
      let r := match o with Ok r => r | _ => VOther end in
      let archive := strEqb type repoArchive in
      let errors := match o with Ok VOk => 0 | Ok r => logInvalid archive r | _ => 1 end in
      let found := if archive then existsb (fun a => sameId (vaId a) id) (vdArch d) else existsb (fun b => strEqb (vkLabel b) id) (vdBack d) in
      if negb found then UB
      else
        let doArch a :=
          if vresEqb r VOk then mkVarch (vaId a) (vaTotal a) (vaValid a + 1) (vaSize a) (vaRanges a)
          else mkVarch (vaId a) (vaTotal a) (vaValid a) (vaSize a) (addBadWal (mkVbad name r) (firstn 24 (last rest [])) (vaRanges a)) in
        let doBack b := let b := if vresEqb r VOk then addValid b else addBad b (mkVbad name r) in if strEqb type repoBackup then setDone b else b in
        Ok (mkVdata (vdIds d) (vdPaths d) (vdFiles d) (vdBackups d) (vdMan d) (vdCurrent d) (vdBackupNow d) (vdErrors d + errors)
              (if archive then updFirst (fun a => sameId (vaId a) id) doArch (vdArch d) else vdArch d)
              (if archive then vdBack d else updFirst (fun b => strEqb (vkLabel b) id) doBack (vdBack d)) (vdFilter d))
  | _ => UB
  end.

(** * file.c:17-82.  Reading, the filters and the hash are arguments; filters may fail. *)
Section File.
Variables (read : str -> option (Z * Z) -> option (list Z)) (decrypt : vcipher -> list Z -> res (list Z)) (decompress : str -> list Z -> res (list Z)) (sha1 : list Z -> list Z).
Definition verifyFile (j : vjob) : res vres :=
  match read (vjPath j) (vjPart j) with
  | None => Ok VMissing
  | Some b =>
      let* b := match vjCipher j with VNone => Ok b | c => decrypt c b end in
      let* b := match vjExt j with [] => Ok b | e => decompress e b end in
      if negb (strEqb (vjSum j) (sha1 b)) then Ok VChecksum else if negb (vjSize j =? Z.of_nat (length b)) then Ok VSize else Ok VOk
  end.
End File.

(** * verify.c:1268-1335 verifySetBackupCheckArchive: the current backup and the errors *)
Definition setBackupCheckArchive (backups info ids history : list str) : option str * Z :=
  (match lastOf backups with Some b => if strLstExists info b then None else Some b | None => None end, if forallb (strLstExists history) ids then 0 else 1).
(** * verify.c:642-711 verifyBackupSet: the manifest of the backup, or an error while loading it *)
Definition backupSet (m : option vman) (backups : list str) : list str * option (str * str) :=
  match m with
  | None => (backups, None)
  | Some m =>
      (if existsb vfBlock (vmFiles m) then strLstSortAsc (fold_left (fun l r => if strLstExists l r then l else l ++ [r]) (vmRefs m) backups) else backups, vmWal m)
  end.
(** * verify.c:1653-1722 the lists at the start: labels in storage, labels in backup.info, archive ids in storage and in the history; [set] is the option and its manifest *)
Definition verifyStart (backups info ids history : list str) (set : option (option vman)) : vdata :=
  let back := strLstSortAsc backups in
  let '(back, filter) :=
    match set with
    | Some m => let '(l, wal) := backupSet m back in (l, Some wal)
    | None => (strLstSortAsc (back ++ filter (fun l => negb (strLstExists back l)) info), None)
    end in
  let '(current, errors) := setBackupCheckArchive back info ids history in
  mkVdata ids [] [] back None current (match ids with [] => true | _ => false end) errors [] [] filter.

(** * All schedules: jobs given out, and results of jobs that are out *)
Section Run.
Variables (w : vworld) (check : vjob -> res vres).
Inductive vstep : vdata * list vjob -> vdata * list vjob -> Prop :=
| StepOut d l j d' : verifyCallback w d = Ok (Some j, d') -> vstep (d, l) (d', l ++ [j])
| StepIdle d l d' : verifyCallback w d = Ok (None, d') -> vstep (d, l) (d', l)
| StepIn d a j b d' : verifyResult (vjKey j) (check j) d = Ok d' -> vstep (d, a ++ j :: b) (d', a ++ b).
Inductive vrun : vdata * list vjob -> vdata * list vjob -> Prop :=
| RunNone s : vrun s s
| RunMore s t u : vrun s t -> vstep t u -> vrun s u.
(** Nothing more to give out and nothing out *)
Definition vfinal (s : vdata * list vjob) : Prop := snd s = [] /\ exists d, verifyCallback w (fst s) = Ok (None, d).
End Run.
