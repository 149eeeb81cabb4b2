(** Annotating a backup.  Models src/command/annotate/annotate.c and infoBackupDataAnnotationSet() of src/info/infoBackup.c.

    A repository has a key and maybe a backup.info, which was written with some key; it can be loaded just with that key.  A backup.info is the list
    of its backups, each with a label, annotations and all else.  Adding and removing backups at load (reconstruct) is left out, and so are errors of a save. *)
From Verif Require Import Base Str ExpireModel.
Open Scope Z_scope.

Definition annots := list (str * str).
Record entry := mkEntry { nLabel : str; nAnnot : option annots; nRest : str }.
Record repo := mkRepo { pKey : str; pInfo : option (str * list entry) }.

(** src/common/type/keyValue.c:117-159 kvPutInternal *)
Fixpoint kvPut (kv : annots) (k v : str) : annots :=
  match kv with [] => [(k, v)] | (a, b) :: t => if strEqb a k then (a, v) :: t else (a, b) :: kvPut t k v end.
(** keyValue.c:330-362 kvRemove *)
Fixpoint kvRemove (kv : annots) (k : str) : annots :=
  match kv with [] => [] | (a, b) :: t => if strEqb a k then t else (a, b) :: kvRemove t k end.
(** infoBackup.c:543-568, the annotations of the backup *)
Definition annotate (old : option annots) (new : annots) : option annots :=
  let kv := fold_left (fun kv p => match snd p with [] => kvRemove kv (fst p) | _ => kvPut kv (fst p) (snd p) end) new (match old with None => [] | Some kv => kv end) in
  match kv with [] => None | _ => Some kv end.
(** infoBackup.c:525-575 infoBackupDataAnnotationSet: the first backup with the label *)
Fixpoint annotationSet (l : list entry) (label : str) (new : annots) : list entry :=
  match l with
  | [] => []
  | e :: t => if strEqb (nLabel e) label then mkEntry (nLabel e) (annotate (nAnnot e) new) (nRest e) :: t else e :: annotationSet t label new
  end.
Definition labelIn (l : list entry) (label : str) : bool := existsb (fun e => strEqb (nLabel e) label) l.
(** infoBackupLoadFileReconstruct with the key of the repository *)
Definition loadInfo (r : repo) : res (list entry) :=
  match pInfo r with None => Err EFileMissing | Some (k, l) => if strEqb k (pKey r) then Ok l else Err ECrypto end.
Fixpoint update {A} (l : list A) (i : nat) (f : A -> A) : list A :=
  match l, i with [], _ => [] | x :: t, O => f x :: t | x :: t, S j => x :: update t j f end.

(** annotate.c:51-84, one repository.  The file is saved with the key of this repository (cfgCipherSpecMainIdx) but to the default repository (storageRepoWrite).
    Gives the repositories and whether the backup was found and whether there was an error. *)
Definition annotateRepo (default : nat) (label : str) (new : annots) (st : list repo * nat * nat) (idx : nat) : list repo * nat * nat :=
  let '(repos, found, errors) := st in
  match nth_error repos idx with
  | None => st
  | Some r =>
      match loadInfo r with
      | Ok l =>
          if labelIn l label then (update repos default (fun d => mkRepo (pKey d) (Some (pKey r, annotationSet l label new))), S found, errors)
          else (repos, found, errors)
      | _ => (repos, found, S errors)
      end
  end.
(** annotate.c:23-96 cmdAnnotate; [repoOpt] is the repository asked for.  Without it all are looked at, and the default is the first. *)
Definition cmdAnnotate (repoOpt : option nat) (label : str) (new : annots) (repos : list repo) : list repo * res unit :=
  if negb (labelAny label) then (repos, Err EOptionInvalidValue)
  else
    let default := match repoOpt with Some i => i | None => O end in
    let idxs := match repoOpt with Some i => [i] | None => seq 0 (length repos) end in
    let '(repos2, found, errors) := fold_left (annotateRepo default label new) idxs (repos, O, O) in
    (repos2, if (0 <? errors)%nat then Err ECommand else if (found =? 0)%nat then Err EBackupSetInvalid else Ok tt).
