(** Deleting a stanza.  Models src/command/stanza/delete.c for storage with directories (posix).

    A directory is missing or the list of all that is below it, as paths from it, in the order in which a recursive remove takes them
    (any order).  The command gives the removals that it does, in order; one that is killed has done some first part of them. *)
From Verif Require Import Base Str RegNameModel ControlModel.
From Coq Require Import String List.
Open Scope Z_scope. Open Scope list_scope.

Inductive side := SArchive | SBackup.
Record dstate := mkDstate { dArchive : option (list str); dBackup : option (list str); dStop : bool }.
Definition dirOf (s : side) (d : dstate) : option (list str) := match s with SArchive => dArchive d | SBackup => dBackup d end.
Definition setDir (s : side) (x : option (list str)) (d : dstate) : dstate :=
  match s with SArchive => mkDstate x (dBackup d) (dStop d) | SBackup => mkDstate (dArchive d) x (dStop d) end.

(** infoArchive.h, infoBackup.h: the names *)
Definition infoName (s : side) : str := match s with SArchive => txt "archive.info" | SBackup => txt "backup.info" end.
Definition infoCopyName (s : side) : str := infoName s ++ txt ".copy".

(** One removal: of an entry, of a directory that is empty by now, of the stop file.  A missing entry is no error. *)
Inductive step := RmEntry (s : side) (name : str) | RmDir (s : side) | RmStop.
Definition doStep (d : dstate) (x : step) : dstate :=
  match x with
  | RmEntry s n => match dirOf s d with Some l => setDir s (Some (removeF n l)) d | None => d end
  | RmDir s => setDir s None d
  | RmStop => mkDstate (dArchive d) (dBackup d) false
  end.
Definition doSteps (d : dstate) (xs : list step) : dstate := fold_left doStep xs d.

Definition notEmpty (l : option (list str)) : bool := match l with Some (_ :: _) => true | _ => false end.
(** delete.c:59-71: the info files of a directory that is not empty *)
Definition rmInfo (s : side) (d : dstate) : list step :=
  if notEmpty (dirOf s d) then [RmEntry s (infoName s); RmEntry s (infoCopyName s)] else [].
(** delete.c:74-79: storagePathRemove with recurse (entries that are gone by now are removed again here, which does nothing) *)
Definition rmPath (s : side) (d : dstate) : list step :=
  match dirOf s d with Some l => map (RmEntry s) l ++ [RmDir s] | None => [] end.
(** delete.c:20-90 cmdStanzaDelete: [running] is whether postmaster.pid exists *)
Definition cmdStanzaDelete (force running : bool) (d : dstate) : res (list step) :=
  match dArchive d, dBackup d with
  | None, None => Ok []
  | _, _ =>
      let* _ := if notEmpty (dArchive d) || notEmpty (dBackup d) then
                  if negb (dStop d) then Err EFileMissing
                  else if negb force && running then Err EPgRunning else Ok tt
                else Ok tt in
      Ok (rmInfo SArchive d ++ rmInfo SBackup d ++ rmPath SArchive d ++ rmPath SBackup d ++ [RmStop])
  end.
