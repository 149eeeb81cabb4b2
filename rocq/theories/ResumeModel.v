(** Resuming an interrupted full backup.  Models backupResumeClean, the checks of backupResumeFind and backupResume
    (src/command/backup/resume.c.inc), compressTypeFromName and compressExtStrip (src/common/compress/helper.c).

    Simplifications: compression types are given by their extension (none is the empty extension); logging and failing system calls are not
    modelled; page checksum results are copied as they are. *)
From Verif Require Import Base Str IncrModel.
Open Scope Z_scope.

(** string.c:706-724 strEndsWithZ *)
Definition strEndsWith (s e : str) : bool := (length e <=? length s)%nat && strEqb (skipn (length s - length e) s) e.
(** strSubN(name, 0, size - size of the extension) *)
Definition stripEnd (s e : str) : str := firstn (length s - length e) s.
(** helper.c:38-104: bz2, gz, lz4, zst, xz in the order of the enum *)
Definition compressExts : list str := [[46;98;122;50]; [46;103;122]; [46;108;122;52]; [46;122;115;116]; [46;120;122]].
(** helper.c:157-176 compressTypeFromName *)
Definition compressExtOf (name : str) : str := match find (strEndsWith name) compressExts with Some e => e | None => [] end.

(** backup.manifest.copy *)
Definition manifestCopy : str := [98;97;99;107;117;112;46;109;97;110;105;102;101;115;116;46;99;111;112;121].

(** A path in the repository with what it contains *)
Inductive node := NFile (name : str) | NPath (name : str) (sub : list node) | NLink (name : str) | NSpecial (name : str).
Definition nodeName (n : node) : str := match n with NFile s | NPath s _ | NLink s | NSpecial s => s end.

Section Resume.
  (** the paths of the new manifest, the files of the resumed manifest, the compression of the new backup, and delta *)
  Variable paths : list str.
  Variable rfiles : list bfile.
  Variable ext : str.
  Variable delta : bool.

  (** resume.c.inc:36-37: name in the manifest *)
  Definition fullName (parent : option str) (name : str) : str := match parent with Some p => p ++ [47] ++ name | None => name end.

  (** resume.c.inc:71-86: the name to look up, None for a mismatched compression type *)
  Definition resumeName (full : str) : option str :=
    let e := compressExtOf full in
    let name := if strEqb e [] then full else stripEnd full e in
    let block := strEndsWith name pgbi in
    let name := if block then stripEnd name pgbi else name in
    if negb (strEqb e ext) && negb block then None else Some name.
  (** resume.c.inc:87-112: the file of the resumed manifest if the file can be resumed *)
  Definition resumable (files : list bfile) (name : str) : option bfile :=
    match fileFind name files, fileFind name rfiles with
    | Some f, Some q =>
        match bfChecksum q with
        | None => None
        | Some _ =>
            if negb (bfSize f =? bfSize q) then None
            else if negb delta && negb (bfTimestamp f =? bfTimestamp q) then None
            else if bfSize f =? 0 then None
            else Some q
        end
    | _, _ => None
    end.
  (** resume.c.inc:117-128 *)
  Definition resumeFrom (q f : bfile) : bfile :=
    mkBfile (bfName f) (bfCopy f) delta true (bfSize f) (bfSizeOriginal f) (bfTimestamp f) (bfChecksum q) (bfSizeRepo q) (bfRepoChecksum q)
      (bfReference f) (bfBundleId f) (bfBundleOffset f) (bfBlockSize q) (bfBlockChecksumSize q) (bfMapSize q).
  (** resume.c.inc:66-145: a file; is it kept? *)
  Definition cleanFile (files : list bfile) (full : str) : list bfile * bool :=
    match resumeName full with
    | None => (files, false)
    | Some name =>
        match resumable files name with
        | None => (files, false)
        | Some q => (map (fun f => if strEqb (bfName f) name then resumeFrom q f else f) files, true)
        end
    end.
  (** resume.c.inc:5-166 backupResumeClean: the manifest and what is left of the entry *)
  Fixpoint cleanNode (parent : option str) (n : node) (files : list bfile) : list bfile * list node :=
    let full := fullName parent (nodeName n) in
    if (match parent with None => true | Some _ => false end) && strEqb (nodeName n) manifestCopy then (files, [n])
    else
      match n with
      | NPath name sub =>
          if existsb (strEqb full) paths then
            let fix go (l : list node) (files : list bfile) : list bfile * list node :=
              match l with
              | [] => (files, [])
              | x :: l => let (files, k1) := cleanNode (Some full) x files in let (files, k2) := go l files in (files, k1 ++ k2)
              end in
            let (files, sub) := go sub files in (files, [NPath name sub])
          else (files, [])
      | NFile name => let (files, keep) := cleanFile files full in (files, if keep then [n] else [])
      | NLink _ | NSpecial _ => (files, [])
      end.
  Fixpoint cleanNodes (parent : option str) (l : list node) (files : list bfile) : list bfile * list node :=
    match l with
    | [] => (files, [])
    | x :: l => let (files, k1) := cleanNode parent x files in let (files, k2) := cleanNodes parent l files in (files, k1 ++ k2)
    end.
End Resume.

(** resume.c.inc:168-290 backupResumeFind: can the last backup of the repository be resumed?  [hasManifest], [hasCopy]: has it a backup.manifest, a copy?
    [copy] is the copy, None if it cannot be loaded: version, full backup?, prior, compression *)
Record resumeInfo := mkResumeInfo { riVersion : str; riFull : bool; riPrior : option str; riExt : str }.
Definition strOptEqb (a b : option str) : bool := match a, b with Some a, Some b => strEqb a b | None, None => true | _, _ => false end.
Definition resumeUsable (hasManifest hasCopy optResume optFull : bool) (new : resumeInfo) (copy : option resumeInfo) : bool :=
  negb hasManifest && optFull && hasCopy && (optResume && optFull) &&
  match copy with
  | None => false
  | Some c => strEqb (riVersion c) (riVersion new) && Bool.eqb (riFull c) optFull && strOptEqb (riPrior c) (riPrior new) && strEqb (riExt c) (riExt new)
  end.
