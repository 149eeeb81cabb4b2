(** WAL expiration.  Models src/command/expire/expire.c:382-846 (expireArchiveId and removeExpiredArchive) for one repository.

    An archive directory <archiveId> holds WAL paths (16 characters, timeline and high part of the LSN), each with WAL files (the 24
    character segment name followed by anything, e.g. "-<sha1>.gz"), and timeline history files.  Logging is not modelled; nor is
    loading archive.info, whose history and current id are given.  Dry run is the caller ignoring the operations. *)
From Verif Require Import Base Str ExpireModel.
Open Scope Z_scope.

Record walDir := mkWalDir { wdPath : str; wdFiles : list str }.
Record archiveDir := mkArchiveDir { adId : str; adWal : list walDir; adHistory : list str }.

(** expire.c:32-36 ArchiveRange. *)
Record range := mkRange { rgStart : str; rgStop : option str }.

Inductive walOp :=
| RmArchive (aid : str)                  (* remove archive/<aid> recursively *)
| RmWalPath (aid path : str)             (* remove archive/<aid>/<path> recursively *)
| RmWal (aid path file : str)
| RmWalHistory (aid file : str).

(** common.h:56-64 and expire.c:458, POSIX bracket "[0-F]" in the C locale is the character range from '0' to 'F'. *)
Definition isHexF (c : Z) : bool := (48 <=? c) && (c <=? 70).
(** "^[0-F]{16}$" *)
Definition isWalPath (s : str) : bool := Nat.eqb (length s) 16 && forallb isHexF s.
(** "^[0-F]{24}.*$" *)
Definition isWalFile (s : str) : bool := (24 <=? length s)%nat && forallb isHexF (firstn 24 s).
(** "^[0-F]{8}.history$"; the dot is not escaped. *)
Definition isWalHistory (s : str) : bool :=
  Nat.eqb (length s) 16 && forallb isHexF (firstn 8 s) && strEqb (skipn 9 s) [104;105;115;116;111;114;121].

(** expire.c:419-420: is the path in the range. *)
Definition pathIn (p : str) (r : range) : bool :=
  strLeb (firstn 16 (rgStart r)) p && match rgStop r with None => true | Some e => strLeb p (firstn 16 e) end.
(** expire.c:471-472: is the WAL segment in the range. *)
Definition fileIn (f : str) (r : range) : bool :=
  strLeb (rgStart r) (firstn 24 f) && match rgStop r with None => true | Some e => strLeb (firstn 24 f) e end.

(** expire.c:382-513 expireArchiveId.  [max] is archiveExpireMax. *)
Definition expireWalDir (aid : str) (ranges : list range) (max : option str) (d : walDir) : list walOp :=
  if negb (existsb (pathIn (wdPath d)) ranges) then [RmWalPath aid (wdPath d)]
  else if match max with None => true | Some m => strLeb (wdPath d) (firstn 16 m) end then
    map (RmWal aid (wdPath d))
      (filter (fun f => negb (existsb (fileIn f) ranges)) (strLstSortAsc (filter isWalFile (wdFiles d))))
  else [].
Definition expireArchiveId (a : archiveDir) (ranges : list range) (max : option str) : list walOp :=
  flat_map (expireWalDir (adId a) ranges max)
    (sortBy wdPath strLeb (filter (fun d => isWalPath (wdPath d)) (adWal a))).

(** repo-retention-archive-type; expire.c:557-575. *)
Inductive retType := RetFull | RetDiff | RetIncr.
Definition retLabel (t : retType) : str -> bool :=
  match t with RetFull => labelFull | RetDiff => labelFullDiff | RetIncr => labelAny end.

Record walCfg := mkWalCfg {
  wcRetention : nat;        (* repo-retention-archive, 0 when not set *)
  wcType : retType;
  wcBefore : option str     (* --archive-expire-before *)
}.

(** History entry of archive.info together with its archive id (infoPgArchiveId, "<version>-<id>").  Simplification: archivePgId is the
    history id instead of the number parsed back from the archive id (expire.c:643). *)
Record archHist := mkArch { ahPg : pgHist; ahId : str }.

(** expire.c:648-661: labels of the global list, oldest first, of backups of this cluster. *)
Definition localRetention (l : list backup) (global : list str) (pgId : Z) : list str :=
  flat_map (fun x => map bkLabel (filter (fun b => strEqb (bkLabel b) x && (bkPgId b =? pgId)) l)) (rev global).

(** expire.c:703-715: intersection, oldest first. *)
Definition localArchive (globalArchive local : list str) : list str :=
  flat_map (fun x => filter (strEqb x) local) (rev globalArchive).

(** expire.c:754-785: ranges of the backups up to the retention backup; all of them belong to the cluster. *)
Definition backupRange (r b : backup) : list range :=
  if strLeb (bkLabel b) (bkLabel r) then
    match bkArchStart b with
    | None => []
    | Some s => [mkRange s (if strEqb (bkLabel b) (bkLabel r) then None else bkArchStop b)]
    end
  else [].

(** expire.c:637-838 for an archive directory [a] of history entry [h]. *)
Definition expireArchiveDir (c : walCfg) (l : list backup) (global globalArchive : list str) (current : Z) (h : archHist)
    (a : archiveDir) : res (list walOp) :=
  let pgId := phId (ahPg h) in
  let local := localRetention l global pgId in
  match rev local with
  | [] =>
      match wcBefore c with
      | Some w => if current =? pgId then Ok (expireArchiveId a [mkRange w None] None) else Ok [RmArchive (adId a)]
      | None => if current =? pgId then Ok [] else Ok [RmArchive (adId a)]
      end
  | newestLocal :: _ =>
      let sel := match localArchive globalArchive local with x :: _ => x | [] => newestLocal end in
      (* expire.c:730-741: the last entry with the label; archiveStart NULL ("{0}") when there is none *)
      match find (fun b => strEqb (bkLabel b) sel) (rev l) with
      | None => Ok []
      | Some r =>
          match bkArchStart r with
          | None => Ok []
          | Some start =>
              let ranges := flat_map (backupRange r) (filter (fun b => bkPgId b =? pgId) l) in
              let before :=
                match wcBefore c with
                | Some w => if strLtb w start then [mkRange w (Some start)] else []
                | None => []
                end in
              Ok (expireArchiveId a (ranges ++ before) (Some start)
                  ++ map (RmWalHistory (adId a))
                       (filter (fun f => strLtb (firstn 8 f) (firstn 8 start)) (strLstSortAsc (filter isWalHistory (adHistory a)))))
          end
      end
  end.

(** expire.c:616-628: history lists must match entry by entry; a shorter backup history is an AssertError (lstGet). *)
Fixpoint historyMatch (ah : list archHist) (bh : list pgHist) : res unit :=
  match ah with
  | [] => Ok tt
  | a :: ah' =>
      match bh with
      | [] => Err EAssert
      | b :: bh' =>
          if (phId (ahPg a) =? phId b) && (phSysId (ahPg a) =? phSysId b) && (phVersion (ahPg a) =? phVersion b)
          then historyMatch ah' bh' else Err EFormat
      end
  end.

Fixpoint mapOps {A} (f : A -> res (list walOp)) (l : list A) : res (list walOp) :=
  match l with
  | [] => Ok []
  | x :: r => let* o := f x in let* o' := mapOps f r in Ok (o ++ o')
  end.

(** expire.c:518-846 removeExpiredArchive.  [ah] and [bh] are the histories of archive.info and backup.info, newest first; [current] the
    id of the current entry of archive.info; [dirs] the archive directories on disk. *)
Definition removeExpiredArchive (c : walCfg) (l : list backup) (ah : list archHist) (bh : list pgHist) (current : Z)
    (dirs : list archiveDir) : res (list walOp) :=
  if Nat.eqb (wcRetention c) 0 then Ok []
  else
    let global := strLstSortDesc (labelList (retLabel (wcType c)) l) in
    if match wcBefore c with Some _ => true | None => false end
       || (negb (Nat.eqb (length global) 0) && (wcRetention c <=? length global)%nat) then
      let globalArchive := firstn (Nat.min (wcRetention c) (length global)) global in
      let* _ := historyMatch ah bh in
      mapOps (fun h => match find (fun a => strEqb (adId a) (ahId h)) dirs with
                       | None => Ok []
                       | Some a => expireArchiveDir c l global globalArchive current h a
                       end) (rev ah)
    else Ok [].
