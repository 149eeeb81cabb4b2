(** Spool status files of asynchronous archiving.  Models src/common/type/stringList.c:353-410 (strLstMergeAnti),
    src/command/archive/common.c:53-234 (status files) and src/command/archive/push/push.c:65-187 (ready and process lists).

    A directory is the list of its files, name and content.  Listing a directory gives its names in any order.  Files are written whole
    (storage writes go to a temporary name first).  Strings hold no zero bytes. *)
From Verif Require Import Base Str ConvertModel NumModel.
Open Scope Z_scope.

Definition dir := list (str * str).
Definition dirNames (d : dir) : list str := map fst d.
Fixpoint dirGet (d : dir) (n : str) : option str :=
  match d with [] => None | (m, c) :: r => if strEqb m n then Some c else dirGet r n end.
Definition dirRemove (d : dir) (n : str) : dir := filter (fun f => negb (strEqb (fst f) n)) d.
Definition dirPut (d : dir) (n c : str) : dir := (n, c) :: dirRemove d n.
Definition dirExists (d : dir) (n : str) : bool := match dirGet d n with Some _ => true | None => false end.
(** storageRemoveP(..., .errorOnMissing = true) *)
Definition dirRemoveStrict (d : dir) (n : str) : res dir := if dirExists d n then Ok (dirRemove d n) else Err EFileMissing.
Fixpoint dirRemoveAll (d : dir) (l : list str) : res dir :=
  match l with [] => Ok d | n :: r => let* d' := dirRemoveStrict d n in dirRemoveAll d' r end.

(** string.c:706-723 strEndsWithZ *)
Definition strEndsWith (s e : str) : bool := (length e <=? length s)%nat && strEqb (skipn (length s - length e) s) e.

(** common.h:29-32, push.c:39: file extensions *)
Definition extOk : str := [46;111;107].
Definition extError : str := [46;101;114;114;111;114].
Definition extReady : str := [46;114;101;97;100;121].
(** common.c:32 "global" *)
Definition statusGlobal : str := [103;108;111;98;97;108].

(** stringList.c:353-410 strLstMergeAnti.  [anti] is the part of the second list from antiIdx on. *)
Fixpoint antiStep (item : str) (anti : list str) : bool * list str :=
  match anti with
  | [] => (true, [])
  | a :: r => match strCmp item a with
              | Lt => (true, anti)
              | Eq => (false, r)
              | Gt => antiStep item r
              end
  end.
Fixpoint strLstMergeAnti (this anti : list str) : list str :=
  match this with
  | [] => []
  | x :: r => let '(add, anti') := antiStep x anti in
              if add then x :: strLstMergeAnti r anti' else strLstMergeAnti r anti'
  end.

(** string.c:984-1027 strTrim *)
Definition isTrim (c : Z) : bool := (c =? 32) || (c =? 9) || (c =? 13) || (c =? 10).
Fixpoint trimFront (s : str) : str := match s with c :: r => if isTrim c then trimFront r else s | [] => [] end.
Definition strTrim (s : str) : str := rev (trimFront (rev (trimFront s))).

(** Characters up to the first line feed and the rest after it (strchr). *)
Fixpoint splitLine (s : str) : option (str * str) :=
  match s with
  | [] => None
  | c :: r => if c =? 10 then Some ([], r) else match splitLine r with Some (a, b) => Some (c :: a, b) | None => None end
  end.

(** * Status files *)

(** common.c:56-75 archiveAsyncErrorClear *)
Definition asyncErrorClear (d : dir) (file : str) : dir := dirRemove (dirRemove d (file ++ extError)) (statusGlobal ++ extError).
(** common.c:185-210 archiveAsyncStatusErrorWrite; no WAL segment means the global error file *)
Definition asyncErrorWrite (d : dir) (seg : option str) (code : Z) (message : str) : res dir :=
  if code =? 0 then Err EAssert
  else Ok (dirPut d ((match seg with Some s => s | None => statusGlobal end) ++ extError) (cvtIntToZ code ++ 10 :: message)).
(** common.c:214-234 archiveAsyncStatusOkWrite *)
Definition asyncOkWrite (d : dir) (seg : str) (warning : option str) : dir :=
  dirPut d (seg ++ extOk) (match warning with None => [] | Some w => 48 :: 10 :: w end).

(** Outcome of archiveAsyncStatus: return false; return true after logging a warning if any; throw the error of the file. *)
Inductive warn := Warn (message : str) | WarnSkipped (code : Z) (message : str).
Inductive status := StFalse | StTrue (w : option warn) | StThrow (code : Z) (message : str).
(** common.c:128-147: content of the status file *)
Definition statusContent (content : str) : res (Z * str) :=
  match content with
  | [] => Ok (0, [])
  | _ => match splitLine content with
         | None => Err EFormat
         | Some (l, m) => match m with
                          | [] => Err EFormat
                          | _ => let* code := cvtZToInt 10 l in Ok (code, strTrim m)
                          end
         end
  end.
(** common.c:79-180 archiveAsyncStatus *)
Definition asyncStatus (d : dir) (seg : str) (throwOnError warnOnOk : bool) : res status :=
  match dirGet d (seg ++ extOk) with
  | Some content =>
      let* (code, message) := statusContent content in
      Ok (StTrue (match content with
                  | [] => None
                  | _ => if warnOnOk then Some (if code =? 0 then Warn message else WarnSkipped code message) else None
                  end))
  | None =>
      match (match dirGet d (seg ++ extError) with Some c => Some c | None => dirGet d (statusGlobal ++ extError) end) with
      | Some content =>
          let* (code, message) := statusContent content in
          if throwOnError then match content with [] => Err EAssert | _ => Ok (StThrow code message) end else Ok StFalse
      | None => Ok StFalse
      end
  end.

(** * Lists *)

(** strLstAddSub(result, name, strSize(name) - size of the extension) *)
Definition stripExt (ext s : str) : str := firstn (length s - length ext) s.
(** push.c:95-123 archivePushReadyList.  [names] are the files of archive_status. *)
Definition pushReadyList (names : list str) : list str :=
  map (stripExt extReady) (strLstSortAsc (filter (fun n => strEndsWith n extReady) names)).

(** push.c:134-187 archivePushProcessList: the new spool out directory and the list to push. *)
Definition pushProcessList (spool : dir) (names : list str) : res (dir * list str) :=
  let statusList := strLstSortAsc (dirNames spool) in
  let okList := map (stripExt extOk) (filter (fun n => strEndsWith n extOk) statusList) in
  let* spool1 := dirRemoveAll spool (filter (fun n => negb (strEndsWith n extOk)) statusList) in
  let readyList := pushReadyList names in
  let* spool2 := dirRemoveAll spool1 (map (fun n => n ++ extOk) (strLstMergeAnti okList readyList)) in
  Ok (spool2, strLstMergeAnti readyList okList).

(** push.c:65-89 archivePushDrop.  [size] is the size of the first file of the list; uint64 multiplication wraps. *)
Definition pushDrop (queueMax size : Z) (l : list str) : bool :=
  queueMax <? (match l with [] => 0 | _ => (size * Z.of_nat (length l)) mod two64 end).
(** push.c:545-560: limit of the number of files pushed in one run. *)
Fixpoint batchLimit (fuel : nat) (batchMax : Z) (l : list str) : list str :=
  match fuel with
  | O => l
  | S f => if (1 <? Z.of_nat (length l)) && (batchMax <? Z.of_nat (length l)) then batchLimit f batchMax (removelast l) else l
  end.
Definition pushBatch (batchSize segSize : Z) (l : list str) : res (list str) :=
  if segSize =? 0 then Err EFormat else Ok (batchLimit (length l) (batchSize / segSize) l).
