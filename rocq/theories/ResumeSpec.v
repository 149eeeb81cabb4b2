(** What is claimed of resuming a backup (C53), independent of the order in which the repository is walked. *)
From Verif Require Import Base Str IncrModel IncrSpec ResumeModel.
Open Scope Z_scope.

(** [inTree paths parent l x]: [x] is the full name of a file in the tree such that all paths above are in [paths]; the copy of the manifest at
    the top does not count. *)
Inductive inTree (paths : list str) : option str -> list node -> str -> Prop :=
| it_file parent l name : In (NFile name) l -> (parent = None -> name <> manifestCopy) -> inTree paths parent l (fullName parent name)
| it_path parent l name sub x : In (NPath name sub) l -> (parent = None -> name <> manifestCopy) -> In (fullName parent name) paths ->
    inTree paths (Some (fullName parent name)) sub x -> inTree paths parent l x.
(** any file, link or other entry, in whatever paths; the copy of the manifest at the top does not count *)
Inductive anywhere : option str -> list node -> str -> Prop :=
| aw_here parent l n : In n l -> (forall name sub, n <> NPath name sub) -> (parent = None -> nodeName n <> manifestCopy) ->
    anywhere parent l (fullName parent (nodeName n))
| aw_path parent l name sub x : In (NPath name sub) l -> (parent = None -> name <> manifestCopy) ->
    anywhere (Some (fullName parent name)) sub x -> anywhere parent l x.

(** The file [f] may be resumed from [q] of the resumed manifest: both have the same name and size, not zero, the content of [q] was stored, and the
    timestamp is the same unless checksums are compared. *)
Definition mayResume (delta : bool) (f q : bfile) : Prop :=
  bfName q = bfName f /\ bfSize q = bfSize f /\ bfSize f <> 0 /\ bfChecksum q <> None /\ (delta = true \/ bfTimestamp f = bfTimestamp q).
(** [f] with what is stored for [q] *)
Definition resumedAs (delta : bool) (f q g : bfile) : Prop :=
  bfName g = bfName f /\ bfCopy g = bfCopy f /\ bfSize g = bfSize f /\ bfSizeOriginal g = bfSizeOriginal f /\ bfTimestamp g = bfTimestamp f /\
  bfReference g = bfReference f /\ bfBundleId g = bfBundleId f /\ bfBundleOffset g = bfBundleOffset f /\
  bfResume g = true /\ bfDelta g = delta /\
  bfChecksum g = bfChecksum q /\ bfSizeRepo g = bfSizeRepo q /\ bfRepoChecksum g = bfRepoChecksum q /\
  bfBlockSize g = bfBlockSize q /\ bfBlockChecksumSize g = bfBlockChecksumSize q /\ bfMapSize g = bfMapSize q.
(** .bz2, .gz, .lz4, .zst and .xz *)
Definition extensions : list str := [[46;98;122;50]; [46;103;122]; [46;108;122;52]; [46;122;115;116]; [46;120;122]].
(** the names the repository file of [name] may have *)
Definition storedName (ext name full : str) : Prop :=
  full = name ++ ext \/ full = name ++ pgbi \/ exists e, In e extensions /\ full = name ++ pgbi ++ e.
