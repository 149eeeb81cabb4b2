(** Vocabulary for the expire properties.  Nothing here depends on the expire algorithms. *)
From Verif Require Import Base Str ExpireModel.
From Coq Require Import Sorted.
Open Scope Z_scope.

(** [dependsOn l x y]: following prior links of entries of [l], starting from label [x], label [y] is met ([x] itself included). *)
Inductive dependsOn (l : list backup) : str -> str -> Prop :=
| dep_self x : dependsOn l x x
| dep_prior b p y : In b l -> bkPrior b = Some p -> dependsOn l p y -> dependsOn l (bkLabel b) y.

(** A backup list in the order the code keeps it: strictly increasing labels, every prior has a smaller label. *)
Definition ordered (l : list backup) : Prop :=
  StronglySorted slt (map bkLabel l) /\ forall b p, In b l -> bkPrior b = Some p -> slt p (bkLabel b).

(** Every prior that is named is itself listed. *)
Definition ancestorsListed (l : list backup) : Prop :=
  forall b p, In b l -> bkPrior b = Some p -> exists b', In b' l /\ bkLabel b' = p.

(** Labels as backupLabelFormat (src/command/backup/common.c:49-78) makes them: a full label has no prior; the label of a diff or incr
    starts with the 16 characters of the full label its prior starts with. *)
Definition wellLabelled (l : list backup) : Prop :=
  forall b, In b l ->
    match bkPrior b with
    | None => labelFull (bkLabel b) = true
    | Some p => labelDiff (bkLabel b) || labelIncr (bkLabel b) = true /\ firstn 16 p = firstn 16 (bkLabel b)
    end.

(** The full backup a label belongs to. *)
Definition fullOf (lab : str) : str := firstn 16 lab.

Definition goodHistory (l : list backup) : Prop := ordered l /\ ancestorsListed l /\ wellLabelled l.

(** The last [n] elements. *)
Definition newest {A} (n : nat) (l : list A) : list A := skipn (length l - n) l.
Definition older {A} (n : nat) (l : list A) : list A := firstn (length l - n) l.
Definition fullLabels (l : list backup) : list str := filter labelFull (map bkLabel l).
Definition fullDiffLabels (l : list backup) : list str := filter (fun s => labelFull s || labelDiff s) (map bkLabel l).

(** A differential backup depends directly on a full backup. *)
Definition diffsOnFulls (l : list backup) : Prop :=
  forall b p, In b l -> labelDiff (bkLabel b) = true -> bkPrior b = Some p -> labelFull p = true.

(** [b] is the newest full backup of [l] / the newest full backup other than [x]. *)
Definition newestFull (l : list backup) (b : backup) : Prop :=
  In b l /\ labelFull (bkLabel b) = true /\ forall c, In c l -> labelFull (bkLabel c) = true -> sle (bkLabel c) (bkLabel b).
Definition newestOtherFull (l : list backup) (x : backup) (b : backup) : Prop :=
  In b l /\ labelFull (bkLabel b) = true /\ bkLabel b <> bkLabel x /\
  forall c, In c l -> labelFull (bkLabel c) = true -> bkLabel c <> bkLabel x -> sle (bkLabel c) (bkLabel b).

(** Removing [b] would leave no full backup of its cluster that is next in line: it is the newest full backup and the newest other full
    backup, if there is one, belongs to another cluster. *)
Definition lastFullOfCluster (l : list backup) (b : backup) : Prop :=
  newestFull l b /\ forall c, newestOtherFull l b c -> bkPgId c <> bkPgId b.

(** * Storage *)

(** Storage agrees with itself: directories are distinct, the manifest in a directory is for that label and satisfies the labelling
    rules, and an entry of the list agrees with the manifest on the prior when there is one. *)
Definition goodManifest (lab : str) (m : manifest) : Prop :=
  bkLabel (mfData m) = lab /\
  labelAny lab = true /\
  match mfPrior m with
  | None => mfFull m = true /\ labelFull lab = true
  | Some p => mfFull m = false /\ labelFull lab = false /\ slt p lab /\ firstn 16 p = firstn 16 lab
  end.
Definition goodStore (s : store) : Prop :=
  NoDup (map dLabel (stDirs s)) /\
  forall d m, In d (stDirs s) -> dManifest d = Some m -> goodManifest (dLabel d) m.
Definition agrees (s : store) (l : list backup) : Prop :=
  forall b m, In b l -> manifestOf s (bkLabel b) = Some m -> bkPrior b = mfPrior m.

(** The manifest belongs to a cluster of the history. *)
Definition knownCluster (hist : list pgHist) (m : manifest) : Prop :=
  exists h, In h hist /\ bkPgId (mfData m) = phId h /\ mfSysId m = phSysId h /\ mfVersion m = phVersion h.

(** What backup.info should list: a backup is complete when its manifest is there and all its ancestors are complete; it is accepted
    when it was listed already or belongs to a known cluster. *)
Inductive usable (s : store) (hist : list pgHist) (l : list backup) : str -> Prop :=
| usable_full lab m :
    manifestOf s lab = Some m -> (In lab (map bkLabel l) \/ knownCluster hist m) -> mfPrior m = None -> usable s hist l lab
| usable_dep lab m p :
    manifestOf s lab = Some m -> (In lab (map bkLabel l) \/ knownCluster hist m) -> mfPrior m = Some p ->
    usable s hist l p -> usable s hist l lab.

(** What the crash theorems assume and re-establish. *)
Definition repoOk (s : store) : Prop := goodStore s /\ goodHistory (stInfo s) /\ agrees s (stInfo s).

(** The newest directory that looks like a backup. *)
Definition newestDir (s : store) (x : str) : Prop :=
  labelAny x = true /\ In x (map dLabel (stDirs s)) /\
  forall y, labelAny y = true -> In y (map dLabel (stDirs s)) -> sle y x.

(** An incomplete backup that a later backup may resume: the newest directory, without manifest but with a manifest copy.  When a backup
    of the same set is expired explicitly it only counts if its prior is still listed. *)
Definition resumable (s : store) (l : list backup) (adhoc : option str) (x : str) : Prop :=
  newestDir s x /\ manifestOf s x = None /\
  exists m, copyOf s x = Some m /\
    forall a, adhoc = Some a -> firstn (length (firstn 16 a)) x = firstn 16 a ->
      exists p, mfPrior m = Some p /\ In p (map bkLabel l).

(** Label syntax: YYYYMMDD-HHMMSS. *)
Definition digit (c : Z) : Prop := 48 <= c <= 57.
Definition dateTime (s : str) : Prop :=
  exists d t, length d = 8%nat /\ length t = 6%nat /\ Forall digit d /\ Forall digit t /\ s = d ++ 45 :: t.
