(** Stopping and starting, and the names of lock files.  Models src/command/control/{common,stop,start}.c and src/command/lock.c (names).

    A state is the list of names in the lock path.  What lockRead (src/common/lock.c:293-352, see LockModel) finds for a lock file is an
    argument.  Errors of the file system are left out, so are the paths: names of stanzas have no slash. *)
From Verif Require Import Base Str NumModel SpoolModel RegNameModel.
From Coq Require Import String List.
Open Scope Z_scope. Open Scope list_scope.

(** command/lock.c:21-28; config.h:48-55 *)
Inductive lockType := LArchive | LBackup | LRestore.
Definition lockTypeName (t : lockType) : str := match t with LArchive => txt "archive" | LBackup => txt "backup" | LRestore => txt "restore" end.
(** lock.h:29 *)
Definition extLock : str := txt ".lock".
(** command/lock.c:33-47 cmdLockFileName *)
Definition cmdLockFileName (stanza : str) (t : lockType) (repoKey : Z) : str :=
  stanza ++ txt "-" ++ lockTypeName t ++ txt "-" ++ cvtUIntToZ repoKey ++ extLock.
(** command/lock.c:50-82 cmdLockList: [type] is None for lockTypeAll; [repo] is the key of option repo if it is set; [keys] are all keys *)
Definition cmdLockList (stanza : str) (type : option lockType) (repo : option Z) (keys : list Z) : list str :=
  let types := match type with None => [LArchive; LBackup; LRestore] | Some t => [t] end in
  let keys := match repo with Some k => [k] | None => keys end in
  flat_map (fun t => map (cmdLockFileName stanza t) keys) types.

(** control/common.h STOP_FILE_EXT, control/common.c:13-21 lockStopFileName *)
Definition lockStopFileName (stanza : option str) : str := (match stanza with Some s => s | None => txt "all" end) ++ txt ".stop".
(** control/common.c:24-45 lockStopTest; StopError is [EOther] *)
Definition lockStopTest (stanza : option str) (dir : list str) : res unit :=
  let* _ := match stanza with
            | Some s => if strLstExists dir (lockStopFileName (Some s)) then Err EOther else Ok tt
            | None => Ok tt
            end in
  if strLstExists dir (lockStopFileName None) then Err EOther else Ok tt.

(** lock.h:71-85 LockReadStatus, with the process id *)
Inductive lockState := LSMissing | LSUnlocked | LSInvalid | LSValid (pid : Z).
(** stop.c:57-59 *)
Definition selected (stanza : option str) (f : str) : bool :=
  strEndsWith f extLock && match stanza with None => true | Some s => strBeginsWith f (s ++ txt "-") end.
(** lock.c:337-339: a file that could be opened is removed *)
Definition removeF (f : str) (dir : list str) : list str := filter (fun x => negb (strEqb x f)) dir.
(** stop.c:52-89: the files in order; [pids] are the processes signalled so far *)
Fixpoint stopLoop (stanza : option str) (lock : str -> lockState) (files : list str) (dir : list str) (pids : list Z) : list str * list Z :=
  match files with
  | [] => (dir, pids)
  | f :: r =>
      if negb (selected stanza f) then stopLoop stanza lock r dir pids
      else let dir' := match lock f with LSMissing => dir | _ => removeF f dir end in
           match lock f with
           | LSValid pid => if existsb (Z.eqb pid) pids then stopLoop stanza lock r dir' pids else stopLoop stanza lock r dir' (pids ++ [pid])
           | _ => stopLoop stanza lock r dir' pids
           end
  end.
(** stop.c:24-104 cmdStop: the names afterwards and the processes signalled, in order *)
Definition cmdStop (stanza : option str) (force : bool) (lock : str -> lockState) (dir : list str) : list str * list Z :=
  let stopFile := lockStopFileName stanza in
  if strLstExists dir stopFile then (dir, [])
  else let dir' := stopFile :: dir in
       if force then stopLoop stanza lock (strLstSortAsc dir') dir' [] else (dir', []).
(** start.c:14-41 cmdStart *)
Definition cmdStart (stanza : option str) (dir : list str) : list str :=
  if strLstExists dir (lockStopFileName stanza) then removeF (lockStopFileName stanza) dir else dir.
