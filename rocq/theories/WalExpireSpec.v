(** Vocabulary for WAL expiration (C19). *)
From Verif Require Import Base Str ExpireModel ExpireSpec WalExpireModel.
Open Scope Z_scope.

(** A WAL file is gone: itself, its path or the whole archive directory was removed. *)
Definition walRemoved (ops : list walOp) (aid p f : str) : Prop :=
  In (RmArchive aid) ops \/ In (RmWalPath aid p) ops \/ In (RmWal aid p f) ops.

(** Segment name of a WAL file. *)
Definition seg (f : str) : str := firstn 24 f.

(** Archive directories as archive-push lays them out: names are distinct, a WAL file is in the path named by its first 16 characters. *)
Definition goodArchive (ah : list archHist) (dirs : list archiveDir) : Prop :=
  NoDup (map adId dirs) /\ NoDup (map ahId ah) /\
  forall a, In a dirs -> NoDup (map wdPath (adWal a)) /\
    forall d f, In d (adWal a) -> In f (wdFiles d) -> isWalFile f = true -> firstn 16 f = wdPath d.

(** Labels that count for archive retention, oldest first. *)
Definition retLabels (t : retType) (l : list backup) : list str := filter (retLabel t) (map bkLabel l).

(** The backup from whose start WAL is kept without gap: the oldest of the newest [n] counted backups that belongs to the cluster, or the
    newest counted backup of the cluster when none of them does. *)
Definition selected (t : retType) (n : nat) (l : list backup) (pg : Z) (r : backup) : Prop :=
  In r l /\ bkPgId r = pg /\ In (bkLabel r) (retLabels t l) /\
  ((In (bkLabel r) (newest n (retLabels t l)) /\
    forall b, In b l -> bkPgId b = pg -> In (bkLabel b) (newest n (retLabels t l)) -> sle (bkLabel r) (bkLabel b)) \/
   ((forall b, In b l -> bkPgId b = pg -> ~ In (bkLabel b) (newest n (retLabels t l))) /\
    forall b, In b l -> bkPgId b = pg -> In (bkLabel b) (retLabels t l) -> sle (bkLabel b) (bkLabel r))).
Definition counted (t : retType) (l : list backup) (pg : Z) : Prop :=
  exists b, In b l /\ bkPgId b = pg /\ In (bkLabel b) (retLabels t l).

(** Archive expiry runs: retention is set, and either --archive-expire-before is given or there are enough backups. *)
Definition expiryActive (c : walCfg) (l : list backup) : Prop :=
  (0 < wcRetention c)%nat /\ (wcBefore c <> None \/ (wcRetention c <= length (retLabels (wcType c) l))%nat).

(** WAL between start and stop of a backup (stop unknown: everything from the start). *)
Definition inBackup (b : backup) (x : str) : Prop :=
  exists s, bkArchStart b = Some s /\ sle s x /\ forall e, bkArchStop b = Some e -> sle x e.

(** Later backups of a cluster start at later WAL. *)
Definition startsOrdered (l : list backup) : Prop :=
  forall b c s s', In b l -> In c l -> bkPgId b = bkPgId c -> slt (bkLabel b) (bkLabel c) ->
    bkArchStart b = Some s -> bkArchStart c = Some s' -> sle s s'.

(** A backup belongs to the cluster of its full backup (an incremental backup is only made on a backup of the same cluster,
    src/command/backup/backup.c backupBuildIncrPrior). *)
Definition clusterChains (l : list backup) : Prop :=
  forall b c, In b l -> In c l -> fullOf (bkLabel b) = bkLabel c -> bkPgId c = bkPgId b.

(** What removes WAL segment [x] of cluster [pg]. *)
Definition olderInRange (l : list backup) (pg : Z) (r : backup) (x : str) : Prop :=
  exists b, In b l /\ bkPgId b = pg /\ slt (bkLabel b) (bkLabel r) /\ inBackup b x.
Definition dirRemoves (c : walCfg) (l : list backup) (current pg : Z) (x : str) : Prop :=
  (counted (wcType c) l pg -> exists r start, selected (wcType c) (wcRetention c) l pg r /\ bkArchStart r = Some start /\
     slt x start /\ ~ olderInRange l pg r x /\ (forall w, wcBefore c = Some w -> slt x w)) /\
  (~ counted (wcType c) l pg -> current = pg -> exists w, wcBefore c = Some w /\ slt x w).

(** Two histories agree entry by entry (the backup history may be longer). *)
Definition sameHistory (ah : list archHist) (bh : list pgHist) : Prop :=
  (length ah <= length bh)%nat /\
  forall i a b, nth_error ah i = Some a -> nth_error bh i = Some b ->
    phId (ahPg a) = phId b /\ phSysId (ahPg a) = phSysId b /\ phVersion (ahPg a) = phVersion b.
