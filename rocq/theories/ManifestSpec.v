(** What is kept when a manifest is saved and loaded again, stated without the text. *)
From Verif Require Import Base Str ArchiveIdSpec JsonModel JsonSpec InfoSpec ManifestPackModel ManifestPackSpec ManifestModel.
From Coq Require Import Permutation Sorting.Sorted.
Open Scope Z_scope.

(** The files in the list, as they are read one by one. *)
Definition fileView (s : mfiles) (fs : list mfile) : Prop :=
  length (msPacks s) = length fs /\ forall i f, nth_error fs i = Some f -> manifestFile s i = Ok f.

(** What may be a name: on one line; if there is an '=' in it, neither it nor its line may have 19 digits in a row. *)
Definition nameOk (name : str) (line : str -> Prop) : Prop :=
  name <> [] /\ ~ In 10 name /\ (~ In 61 name \/ (~ manyDigits name /\ forall s, line s -> ~ manyDigits s)).
Definition bytesOk (o : option (list Z)) : Prop := match o with Some s => length s = 20%nat /\ Forall (fun c => 0 <= c < 256) s | None => True end.
(** The page errors are JSON as it is written here, on one line. *)
Definition errorsOk (o : option str) : Prop :=
  match o with Some s => lenOk s /\ ~ In 10 s /\ exists v, jgram false v s /\ jsonFromVar v = Ok s | None => True end.
(** Neither the user nor the group is "@", which stands for a default that is not known yet, and the mode is not that of all bits set.  The time
    is not before 1970. *)
Definition goodFile (refs : list str) (f : mfile) : Prop :=
  nameOk (mfName f) (fun s => exists sv, jsonObject (fileFields sv f) = Ok s) /\ lenOk (mfName f) /\ errorsOk (mfErrorList f) /\
  bytesOk (mfSha1 f) /\ bytesOk (mfRepoSha1 f) /\ 0 <= mfMode f < 2 ^ 32 - 1 /\ mfUser f <> Some [64] /\ mfGroup f <> Some [64] /\
  (forall r, mfReference f = Some r -> In r refs) /\
  u64 (mfBundleId f) /\ u64 (mfBundleOffset f) /\ u64 (mfBlockSize f) /\ (8192 | mfBlockSize f) /\ u64 (mfBlockChecksumSize f) /\ u64 (mfBlockMapSize f) /\
  u64 (mfSize f) /\ u64 (mfSizeOriginal f) /\ u64 (mfSizeRepo f) /\ 0 <= mfTimestamp f < 2 ^ 62.
Definition uintVar (o : option jvar) : Prop := match o with Some v => exists z, v = JUInt z /\ 0 <= z < 2 ^ 32 | None => True end.
Definition boolVar (o : option jvar) : Prop := match o with Some v => exists b, v = JBool b | None => True end.
Definition goodOption (o : moption) : Prop :=
  boolVar (moStandby o) /\ uintVar (moBufferSize o) /\ boolVar (moChecksumPage o) /\ uintVar (moCompressLevel o) /\ uintVar (moCompressLevelNetwork o) /\
  boolVar (moDelta o) /\ uintVar (moProcessMax o).
Definition goodBackup (b : mbackup) : Prop := 0 <= mbCopyStart b < 2 ^ 63 /\ 0 <= mbStart b < 2 ^ 63 /\ 0 <= mbStop b < 2 ^ 63.
Definition goodPg (control : Z -> Z) (g : mpg) : Prop :=
  0 <= mgId g < 2 ^ 32 /\ isVersion (mgVersion g) /\ 0 <= mgSystemId g < 2 ^ 64 /\ 0 <= mgCatalog g < 2 ^ 32 /\ 0 <= control (mgVersion g) < 2 ^ 32.
(** Annotations are texts with short keys that start with a small letter. *)
Definition goodAnnotation (o : option jvar) : Prop :=
  match o with
  | None => True
  | Some v => exists l, v = JObj l /\ NoDup (map fst l) /\
      Forall (fun p => (exists c k, fst p = c :: k /\ 97 <= c <= 122) /\ jkeyText (fst p) /\ ~ In 10 (fst p) /\ (length (fst p) < 67)%nat /\ exists s, snd p = JStr s) l
  end.
Definition goodDb (d : mdb) : Prop :=
  nameOk (mdName d) (fun s => jsonObject (dbFields d) = Ok s) /\ 0 <= mdId d < 2 ^ 32 /\ 0 <= mdLastSystemId d < 2 ^ 32.
Definition goodTarget (t : mtarget) : Prop :=
  nameOk (mtName t) (fun s => jsonObject (targetFields t) = Ok s) /\ 0 <= mtTablespaceId t < 2 ^ 32 /\ (mtTablespaceId t <> 0 -> mtTablespaceName t <> None).
Definition goodLink (l : mlink) : Prop := nameOk (mlName l) (fun s => exists sv, jsonObject (linkFields sv l) = Ok s).
Definition goodPath (p : mpath) : Prop := nameOk (mpName p) (fun s => exists sv, jsonObject (pathFields sv p) = Ok s) /\ 0 <= mpMode p < 2 ^ 32.

(** A manifest that can be saved and loaded: everything within the ranges of its types, no name twice, and pg_data among targets and paths. *)
Definition goodManifest (control : Z -> Z) (m : manifest) (fs : list mfile) : Prop :=
  let refs := mxReferences (msCtx (mnFiles m)) in
  fileView (mnFiles m) fs /\
  refs <> [] /\ Forall (fun r => ~ In 44 r) refs /\
  Z.of_nat (length refs) + 2 * Z.of_nat (length fs) < 2 ^ 32 /\
  goodBackup (mnBackup m) /\ goodPg control (mnPg m) /\ goodOption (mnOption m) /\ goodAnnotation (mnAnnotation m) /\
  Forall goodDb (mnDbs m) /\ Forall goodTarget (mnTargets m) /\ Forall goodLink (mnLinks m) /\ Forall goodPath (mnPaths m) /\ Forall (goodFile refs) fs /\
  NoDup (map mdName (mnDbs m)) /\ NoDup (map mtName (mnTargets m)) /\ NoDup (map mlName (mnLinks m)) /\ NoDup (map mpName (mnPaths m)) /\
  NoDup (map mfName fs) /\
  In [112;103;95;100;97;116;97] (map mtName (mnTargets m)) /\ In [112;103;95;100;97;116;97] (map mpName (mnPaths m)).

(** The SHA-1 of no data. *)
Definition emptySha1 : list Z := [218;57;163;238;94;107;75;13;50;85;191;239;149;96;24;144;175;216;7;9].
(** What is kept of a file: not what is to be done with it; what belongs to page checksums, a bundle or blocks only if there are any; and an empty
    file has the checksum of no data. *)
Definition savedFile (f : mfile) : mfile :=
  mkMfile (mfName f) false false false (mfChecksumPage f) (mfChecksumPage f && mfChecksumPageError f) (mfMode f)
    (if mfSize f =? 0 then Some emptySha1 else mfSha1 f) (mfRepoSha1 f) (if mfChecksumPage f then mfErrorList f else None) (mfUser f) (mfGroup f) (mfReference f)
    (mfBundleId f) (if mfBundleId f =? 0 then 0 else mfBundleOffset f) (mfBlockSize f)
    (if mfBlockSize f =? 0 then 0 else mfBlockChecksumSize f) (if mfBlockSize f =? 0 then 0 else mfBlockMapSize f)
    (mfSize f) (mfSizeOriginal f) (mfSizeRepo f) (mfTimestamp f).
(** The name of a tablespace is kept with its id only. *)
Definition savedTarget (t : mtarget) : mtarget :=
  mkMtarget (mtName t) (mtIsPath t) (mtPath t) (mtFile t) (mtTablespaceId t) (if mtTablespaceId t =? 0 then None else mtTablespaceName t).

(** The same elements by name. *)
Definition byName {A} (name : A -> str) (l l' : list A) : Prop := Permutation l l' /\ StronglySorted slt (map name l').
Definition sameAnnotation (o o' : option jvar) : Prop :=
  match o, o' with
  | None, None => True
  | Some (JObj l), Some (JObj l') => Permutation l l'
  | _, _ => False
  end.
Definition sameManifest (m : manifest) (fs : list mfile) (m' : manifest) (fs' : list mfile) : Prop :=
  mnCipher m' = mnCipher m /\ mnBackup m' = mnBackup m /\ mnPg m' = mnPg m /\ mnOption m' = mnOption m /\ sameAnnotation (mnAnnotation m) (mnAnnotation m') /\
  mxReferences (msCtx (mnFiles m')) = mxReferences (msCtx (mnFiles m)) /\
  byName mdName (mnDbs m) (mnDbs m') /\ byName mtName (map savedTarget (mnTargets m)) (mnTargets m') /\ byName mlName (mnLinks m) (mnLinks m') /\
  byName mpName (mnPaths m) (mnPaths m') /\ byName mfName (map savedFile fs) fs'.
