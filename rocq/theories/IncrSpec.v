(** What is claimed of incremental backups (C38, C39), independent of how the manifest is built and files are copied. *)
From Coq Require Import Permutation.
From Verif Require Import Base Str IncrModel.
Open Scope Z_scope.

(** The backup that stores a file of [m], and the path from which restore reads it (restore/process.c.inc:415-426: a file with a block map is read as
    block incremental) *)
Definition owner (m : manifest) (f : bfile) : str := match bfReference f with Some r => r | None => mLabel m end.
Definition restorePath (m : manifest) (f : bfile) : rpath :=
  repoPath (owner m f) (bfName f) (bfBundleId f) (mCompressExt m) (negb (bfMapSize f =? 0)).
Definition pathLabel (p : rpath) : str := match p with RFile l _ => l | RBundle l _ => l end.
Definition slice (b : list Z) (offset size : Z) : list Z := firstn (Z.to_nat size) (skipn (Z.to_nat offset) b).

(** The two files are recorded with the same content at the same place. *)
Definition sameStored (f g : bfile) : Prop :=
  bfSize f = bfSize g /\ bfChecksum f = bfChecksum g /\ bfSizeRepo f = bfSizeRepo g /\ bfRepoChecksum f = bfRepoChecksum g /\
  bfBundleId f = bfBundleId g /\ bfBundleOffset f = bfBundleOffset g /\ bfBlockSize f = bfBlockSize g /\
  bfBlockChecksumSize f = bfBlockChecksumSize g /\ bfMapSize f = bfMapSize g.

(** A file of a manifest as built for a full backup (build.c.inc:295-330): all is copied but empty files when bundling. *)
Definition builtFile (sha1 : list Z -> list Z) (f : bfile) : Prop :=
  bfReference f = None /\ bfBundleId f = 0 /\ bfBundleOffset f = 0 /\ bfMapSize f = 0 /\ bfDelta f = false /\ bfResume f = false /\
  (bfCopy f = false -> bfSize f = 0 /\ bfChecksum f = Some (sha1 [])).
(** A file found by resume (resume.c.inc:108-135): the size is that of the built file, the location of the repository file is the one the job will use *)
Definition resumedFile (cfg : bcfg) (f : bfile) : Prop :=
  bfReference f = None /\ bfBundleId f = 0 /\ bfBundleOffset f = 0 /\ bfResume f = true /\ bfCopy f = true /\ bfSize f <> 0 /\
  negb (bfMapSize f =? 0) = isBlock cfg f.

(** The jobs of a backup: each file to copy once, files alone or in bundles with different ids (JobProps.v C36_each_file_once, C36_jobs,
    C36_bundle_ids).  Resumed files are not bundled, see DESIGN.md. *)
Definition jobsOk (m : manifest) (jobs : list (Z * list (bfile * readEnv))) : Prop :=
  Permutation (map fst (concat (map snd jobs))) (filter bfCopy (mFiles m)) /\
  NoDup (filter (fun id => negb (id =? 0)) (map fst jobs)) /\
  (forall id l, In (id, l) jobs -> id = 0 -> length l = 1%nat) /\
  (forall id l f env, In (id, l) jobs -> In (f, env) l -> bfResume f = true -> id = 0).

(** No two files of the manifest have the same repository file. *)
Definition fileExt (cfg : bcfg) (m : manifest) (f : bfile) : str := if isBlock cfg f then pgbi else mCompressExt m.
Definition noCollision (cfg : bcfg) (m : manifest) : Prop :=
  forall f g, In f (mFiles m) -> In g (mFiles m) -> bfName f ++ fileExt cfg m f = bfName g ++ fileExt cfg m g -> bfName f = bfName g.

(** [env] is what the job of the file saw. *)
Definition inJob (jobs : list (Z * list (bfile * readEnv))) (f : bfile) (env : readEnv) : Prop := exists id l, In (id, l) jobs /\ In (f, env) l.
(** The content read for the checksum and for the copy: the limit is that of a copy from a standby, pg_control is copied without *)
Definition readDelta (env : readEnv) (f : bfile) (c : list Z) : Prop :=
  exists c0, reDelta env = Some c0 /\ c = if reExact env then firstn (Z.to_nat (bfSizeOriginal f)) c0 else c0.
Definition readCopy (env : readEnv) (f : bfile) (c : list Z) : Prop :=
  exists c0, reCopy env = Some c0 /\ c = if reExact env && negb (rePgControl env) then firstn (Z.to_nat (bfSizeOriginal f)) c0 else c0.
(** A content was read that has the size and checksum recorded for the file. *)
Definition readSame (sha1 : list Z -> list Z) (env : readEnv) (f : bfile) : Prop :=
  exists c, (readDelta env f c \/ readCopy env f c) /\ bfSize f = zlen c /\ bfChecksum f = Some (sha1 c).

(** What the filters must satisfy: without filters the file is stored as is, and the block map of a file that is not empty is not empty. *)
Definition cfgOk (cfg : bcfg) : Prop :=
  (forall id off f c, bcFiltered cfg = false -> isBlock cfg f = false -> bcImage cfg id off f c = c) /\
  (forall id off f c, isBlock cfg f = true -> c <> [] -> 0 < bcMapSize cfg id off f c).

Section History.
  Variable sha1 : list Z -> list Z.
  (** the filters of each backup *)
  Variable cfgOf : str -> bcfg.

  (** What is in a repository after any sequence of backups, expirations and any other changes of paths that belong to no backup (interrupted
      backups, for example).  A full backup may resume some of its files.  Expiration removes a backup with all backups based on it. *)
  Inductive history : list manifest -> repo -> Prop :=
  | h_empty r : history [] r
  | h_full w r m delta copyStart ext m' files label archiveStop jobs m'' r' :
      history w r -> cfgOk (cfgOf label) -> ~ In label (map mLabel w) ->
      mReferences m = [] -> mPrior m = None -> NoDup (map bfName (mFiles m)) -> Forall (builtFile sha1) (mFiles m) ->
      Forall2 (fun f g => g = f \/ bfName g = bfName f /\ resumedFile (cfgOf label) g) (mFiles m) files ->
      m' = buildComplete (fullManifest m delta copyStart ext) None files ->
      noCollision (cfgOf label) m' -> jobsOk m' jobs ->
      backupRun sha1 (cfgOf label) m' label archiveStop jobs r = Ok (m'', r') ->
      history (m'' :: w) r'
  | h_incr w r m prior delta copyStart archiveStart m' label archiveStop jobs m'' r' :
      history w r -> cfgOk (cfgOf label) -> ~ In label (map mLabel w) ->
      NoDup (map bfName (mFiles m)) -> Forall (builtFile sha1) (mFiles m) ->
      In prior w -> m' = incrManifest m prior delta copyStart archiveStart ->
      noCollision (cfgOf label) m' -> jobsOk m' jobs ->
      backupRun sha1 (cfgOf label) m' label archiveStop jobs r = Ok (m'', r') ->
      history (m'' :: w) r'
  | h_expire w r (keep : str -> bool) r' :
      history w r ->
      (forall m p, In m w -> mPrior m = Some p -> keep p = false -> keep (mLabel m) = false) ->
      (forall p, keep (pathLabel p) = true -> In (pathLabel p) (map mLabel w) -> r' p = r p) ->
      history (filter (fun m => keep (mLabel m)) w) r'.

  (** The stored bytes of a file have the recorded size and checksum; and if it was not resumed they are what the filters made of a content with the
      recorded size and checksum. *)
  Definition contentStored (r : repo) (m : manifest) (f stored : bfile) : Prop :=
    exists whole b, r (restorePath m f) = Some whole /\ b = slice whole (bfBundleOffset f) (bfSizeRepo f) /\ zlen b = bfSizeRepo f /\
      match bfRepoChecksum f with Some s => s = sha1 b | None => bfChecksum f = Some (sha1 b) end /\
      (bfResume stored = false ->
       exists f0 c, bfName f0 = bfName f /\ b = bcImage (cfgOf (owner m f)) (bfBundleId f) (bfBundleOffset f) f0 c /\ zlen c = bfSize f /\
         bfChecksum f = Some (sha1 c)).
  (** A file of a backup resolves: its owner is listed, is a backup in the repository that stores the file itself with the same size and checksum at
      the same place, and the content can be read from there. *)
  Definition resolves (w : list manifest) (r : repo) (m : manifest) (f : bfile) : Prop :=
    In (owner m f) (mReferences m) /\
    exists mo fo, In mo w /\ mLabel mo = owner m f /\ mCompressExt mo = mCompressExt m /\
      In fo (mFiles mo) /\ bfName fo = bfName f /\ bfReference fo = None /\ sameStored fo f /\
      (bfSize f <> 0 -> contentStored r m f fo).
End History.
