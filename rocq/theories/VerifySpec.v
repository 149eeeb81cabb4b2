(** What the verify command should find. *)
From Coq Require Import String Sorting.Permutation.
From Verif Require Import Base Str NumModel LsnModel RegNameModel EncodeModel ResumeModel VerifyModel.
Open Scope Z_scope.
Open Scope list_scope.

(** * WAL *)
(** The segment of the file is that of no other file of the list *)
Definition once (l : list str) (f : str) : bool := (length (filter (fun g => strEqb (firstn 24 g) (firstn 24 f)) l) =? 1)%nat.
(** Segments in sequence *)
Definition follows (size : Z) (a b : str) : Prop := walSegmentNext a size = Ok b.
(** [ranges] are the longest runs of segments in sequence: where one ends the next segment is not the following one.  [bad] says what the range of a run holds. *)
Definition isRuns (size : Z) (bad : list str -> list vbad -> Prop) (segs : list str) (ranges : list vrange) : Prop :=
  exists rs, concat rs = segs /\ Forall2 (fun r x => hd_error r = Some (vrStart x) /\ (exists q, r = q ++ [vrStop x]) /\ bad r (vrBad x)) rs ranges /\
    (forall r a x y b, In r rs -> r = a ++ x :: y :: b -> follows size x y) /\
    (forall A r x y s B, rs = A ++ (r ++ [x]) :: (y :: s) :: B -> ~ follows size x y).
(** A segment is asked for by the range *)
Definition wanted (o : option (option (str * str))) (f : str) : bool :=
  match o with None => true | Some None => false | Some (Some (a, b)) => strLeb a (firstn 24 f) && strLeb (firstn 24 f) b end.
(** Names of WAL files as they are stored: the segment has three numbers, and the path is the first two *)
Definition properSeg (s : str) : Prop := exists t a b, 0 <= t < 2 ^ 32 /\ 0 <= a < 2 ^ 32 /\ 0 <= b < 2 ^ 32 /\ s = walName t a b.
Definition walPathOk (path : str) (files : list str) : Prop := forall f, In f files -> properSeg (firstn 24 f) /\ firstn 16 f = path.
(** The files of a path that are in the range asked for, and those that are checked: all but duplicates, in order *)
Definition listed (w : vworld) (o : option (option (str * str))) (id path : str) : list str := filter (wanted o) (strLstSortAsc (vwFiles w id path)).
Definition walFiles (w : vworld) (o : option (option (str * str))) (id path : str) : list str := let l := listed w o id path in filter (once l) l.
(** The number of segments of the path that have more than one file *)
Definition dupsAre (w : vworld) (o : option (option (str * str))) (id path : str) (e : Z) : Prop :=
  exists ds, NoDup ds /\ e = Z.of_nat (length ds) /\ forall s, In s ds <-> exists f, In f (listed w o id path) /\ firstn 24 f = s /\ once (listed w o id path) f = false.
(** All paths by archive id, and all files *)
Definition walPaths (w : vworld) (ids : list str) : list (str * str) := flat_map (fun id => map (pair id) (strLstSortAsc (vwPaths w id))) ids.
Definition walWork (w : vworld) (o : option (option (str * str))) (l : list (str * str)) : list (str * str * str) := flat_map (fun x => map (pair x) (walFiles w o (fst x) (snd x))) l.
(** The segment size is that in the header of the first file *)
Definition sizeIs (w : vworld) (o : option (option (str * str))) (id : str) (paths : list str) (n : Z) : Prop :=
  match flat_map (fun p => map (pair p) (listed w o id p)) paths with
  | [] => n = 0
  | (p, f) :: _ => vwWalSize w (slashed repoArchive (slashed id (slashed p f))) = Ok n
  end.
(** What is found for an archive id, given the results of its files *)
Definition failed (r : res vres) : bool := match r with Ok VOk => false | _ => true end.
Definition reason (r : res vres) : vres := match r with Ok r => r | _ => VOther end.
Definition ofId {A} (id : str) (x : str * str * str * A) : bool := let '(i, _, _, _) := x in strEqb i id.
Definition badFile (x : str * str * str * res vres) : vbad := let '(id, p, f, r) := x in mkVbad (slashed id (slashed p f)) (reason r).
Definition badsAre (results : list (str * str * str * res vres)) (id : str) (run : list str) (b : list vbad) : Prop :=
  Permutation b (map badFile (filter (fun x => ofId id x && (strLstExists run (firstn 24 (snd (fst x))) && failed (snd x))) results)).
Definition archIs (w : vworld) (o : option (option (str * str))) (results : list (str * str * str * res vres)) (paths : list str) (a : varch) : Prop :=
  vaTotal a = Z.of_nat (length (flat_map (listed w o (vaId a)) paths)) /\
  vaValid a = Z.of_nat (length (filter (fun x => ofId (vaId a) x && negb (failed (snd x))) results)) /\
  sizeIs w o (vaId a) paths (vaSize a) /\
  isRuns (vaSize a) (badsAre results (vaId a)) (map (firstn 24) (flat_map (walFiles w o (vaId a)) paths)) (vaRanges a).

(** * Backups *)
(** A file has data of its own in the repository.  With bundling, files without data are not stored. *)
Definition needed (m : vman) (f : vfile) : bool := negb (vfSize f =? 0) || negb (vmBundle m).
(** Where the file is: in the backup that it refers to, or in this one *)
Definition ownerOf (label : str) (f : vfile) : str := match vfRef f with Some r => r | None => label end.
Definition repoName (label : str) (m : vman) (f : vfile) : str :=
  slashed (ownerOf label f) (if vfBundle f =? 0 then vfName f ++ (if vfBlock f then txt ".pgbi" else vmExt m) else slashed (txt "bundle") (cvtUIntToZ (vfBundle f))).
(** The check of it *)
Definition jobOf (label : str) (m : vman) (f : vfile) : vjob :=
  let path := slashed repoBackup (repoName label m f) in
  let part := if vfBundle f =? 0 then None else Some (vfOffset f, vfSizeRepo f) in
  match vfSumRepo f with
  | Some s => mkVjob (slashed label path) path part [] s (vfSizeRepo f) VNone
  | None => mkVjob (slashed label path) path part (vmExt m) (vfSum f) (vfSize f) (VManifest label)
  end.

(** * Whole runs *)
(** The segment size of an archive id, and the check of a WAL file: the checksum is in its name *)
Definition walSize (w : vworld) (o : option (option (str * str))) (id : str) : Z :=
  match flat_map (fun p => map (pair p) (listed w o id p)) (strLstSortAsc (vwPaths w id)) with
  | [] => 0
  | (p, f) :: _ => match vwWalSize w (slashed repoArchive (slashed id (slashed p f))) with Ok n => n | _ => 0 end
  end.
Definition walResult (w : vworld) (o : option (option (str * str))) (check : vjob -> res vres) (x : str * str * str) : res vres :=
  let '(id, p, f) := x in
  let path := slashed repoArchive (slashed id (slashed p f)) in
  match decodeHex true (firstn 40 (skipn 25 f)) with
  | Ok sum => check (mkVjob (slashed id path) path None (compressExtOf path) sum (walSize w o id) VArchive)
  | Err e => Err e
  | UB => UB
  end.
Definition walResults (w : vworld) (o : option (option (str * str))) (check : vjob -> res vres) (ids : list str) : list (str * str * str * res vres) :=
  map (fun x => (x, walResult w o check x)) (walWork w o (walPaths w ids)).
Definition sumZ (l : list Z) : Z := fold_right Z.add 0 l.
(** Errors that are counted: a WAL file that is missing by now is not *)
Definition counted (archive : bool) (r : res vres) : Z := match r with Ok VOk => 0 | Ok VMissing => if archive then 0 else 1 | _ => 1 end.
(** Nothing done yet *)
Definition fresh (d : vdata) : Prop := vdPaths d = [] /\ vdFiles d = [] /\ vdMan d = None /\ vdArch d = [] /\ vdBack d = [] /\ (vdBackupNow d = true -> vdIds d = []).
(** Names as they are in the repository *)
Definition goodIds (w : vworld) (ids : list str) : Prop :=
  NoDup ids /\ (forall a b, In a ids -> In b ids -> sameId a b = true <-> a = b) /\
  forall id, In id ids -> ~ In 47 id /\ NoDup (vwPaths w id) /\ forall p, In p (vwPaths w id) -> ~ In 47 p /\ walPathOk p (vwFiles w id p) /\ forall f, In f (vwFiles w id p) -> ~ In 47 f.
Definition goodLabels (l : list str) : Prop := NoDup l /\ forall x, In x l -> ~ In 47 x.
(** The manifest of a backup if it can be used, what is reported if not, and errors counted *)
Definition manifestOf (w : vworld) (cur : option str) (label : str) : option vman * vstatus * Z := verifyManifestFile w label (match cur with Some c => strEqb c label | None => false end).
Definition usable (w : vworld) (cur : option str) (label : str) (m : vman) : Prop := fst (fst (manifestOf w cur label)) = Some m.
Definition manifestErr (w : vworld) (cur : option str) (label : str) : Z := match manifestOf w cur label with (Some m, _, e) => e + match vmFiles m with [] => 1 | _ => 0 end | (None, _, e) => e end.
(** A run: until there is no job to give out and none is out *)
Definition completed (w : vworld) (check : vjob -> res vres) (d0 d : vdata) : Prop := exists d1, vrun w check (d0, []) (d1, []) /\ verifyCallback w d1 = Ok (None, d).
(** A file that refers to another backup is a file of that backup, and there what passes the check passes it here *)
Definition coherent (w : vworld) (cur : option str) (check : vjob -> res vres) (backups : list str) : Prop :=
  forall l m f r m', In l backups -> usable w cur l m -> In f (vmFiles m) -> needed m f = true -> vfRef f = Some r -> usable w cur r m' ->
    exists g, In g (vmFiles m') /\ needed m' g = true /\ vfRef g = None /\ (check (jobOf r m' g) = Ok VOk -> check (jobOf l m f) = Ok VOk).
(** The assumptions of the theorems: names are as they are in the repository and nothing is done yet *)
Definition good (w : vworld) (d : vdata) : Prop := goodIds w (vdIds d) /\ (forall f n, vwWalSize w f = Ok n -> n <> 0) /\ goodLabels (vdBackups d) /\ fresh d.
