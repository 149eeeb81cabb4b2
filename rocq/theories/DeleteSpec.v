(** What the claims on deleting a stanza say. *)
From Verif Require Import Base Str RegNameModel ControlModel DeleteModel.
From Coq Require Import String List.
Open Scope Z_scope. Open Scope list_scope.

Definition has (d : dstate) (s : side) (n : str) : Prop := exists l, dirOf s d = Some l /\ In n l.
Definition isInfo (s : side) (n : str) : Prop :=
  n = (match s with SArchive => txt "archive.info" | SBackup => txt "backup.info" end) \/ n = (match s with SArchive => txt "archive.info.copy" | SBackup => txt "backup.info.copy" end).
(** There is something in a directory. *)
Definition content (d : dstate) : Prop := exists s n, has d s n.
Definition gone (d : dstate) : Prop := dArchive d = None /\ dBackup d = None.
