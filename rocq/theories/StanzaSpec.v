(** What the claims on stanzas say, apart from how the commands work. *)
From Verif Require Import Base Str ArchiveIdModel StanzaModel.
Open Scope Z_scope.

(** The info that a file and its copy hold: the file's if it is good, else the copy's. *)
Definition holds (main copy : option file) (i : infoPg) (rest : str) : Prop :=
  main = Some (Good i rest) \/ (forall j x, main <> Some (Good j x)) /\ copy = Some (Good i rest).
Definition archiveIs (r : repo) := holds (rArchive r) (rArchiveCopy r).
Definition backupIs (r : repo) := holds (rBackup r) (rBackupCopy r).
Definition current (i : infoPg) (d : pgData) : Prop := nth_error (ipHistory i) (ipCurrent i) = Some d.
(** Both infos are there, and their current entries are the same and those of the cluster. *)
Definition valid (r : repo) (version systemId : Z) : Prop :=
  exists ai ar bi br d e, archiveIs r ai ar /\ backupIs r bi br /\ current ai d /\ current bi e /\
    pdId d = pdId e /\ pdVersion d = version /\ pdVersion e = version /\ pdSystemId d = systemId /\ pdSystemId e = systemId.
Definition noInfo (r : repo) : Prop := rArchive r = None /\ rArchiveCopy r = None /\ rBackup r = None /\ rBackupCopy r = None.
Definition blank (r : repo) : Prop := noInfo r /\ rArchiveList r = [] /\ rBackupList r = [].
(** The history after an upgrade to [version] and [systemId]: the same if it is current, else with a next entry on top. *)
Definition upgraded (version systemId : Z) (i j : infoPg) : Prop :=
  exists d, current i d /\
    (pdVersion d = version /\ pdSystemId d = systemId /\ j = i \/
     (pdVersion d <> version \/ pdSystemId d <> systemId) /\ j = mkInfoPg (mkPg ((pdId d + 1) mod 2 ^ 32) version systemId :: ipHistory i) 0).
