(** Finding WAL segments in the archive, and the check for WAL at the end of a backup.  Models src/command/archive/find.c:18-197 and backupArchiveCheckCopy()
    (src/command/backup/complete.c.inc:43-176), compressTypeFromName() (src/common/compress/helper.c:157-176).

    The world is seen in steps: each list of a directory and each reading of the clock is one, and the directory of WAL may be different each time.  A missing directory is empty.
    Errors of the storage, logging, saving the manifest before the check, and keep-alive are left out.  Fuel is for the rounds of waiting; to run out of it is UB. *)
From Coq Require Import String.
From Verif Require Import Base Str ConvertModel EncodeModel LsnModel RegNameModel SpoolModel PushModel WaitModel BuildModel.
Open Scope Z_scope.
Open Scope list_scope.

(** find.c:18-26; the storage and the archive id are the section variables below *)
Record finder := mkFinder { fdSingle : bool; fdTimeout : Z; fdPrefix : option str; fdList : option (list str) }.
(** find.c:37-62 *)
Definition finderNew (single : bool) (timeout : Z) : finder := mkFinder single timeout None None.

Fixpoint dropWhile {A} (p : A -> bool) (l : list A) : list A := match l with [] => [] | a :: r => if p a then dropWhile p r else l end.
Fixpoint countWhile {A} (p : A -> bool) (l : list A) : nat := match l with [] => O | a :: r => if p a then S (countWhile p r) else O end.

Section Find.
(** What the directory of a WAL prefix contains and what the clock says, at each step *)
Variable dir : nat -> str -> list str.
Variable now : nat -> Z.

(** find.c:91-112: get the list unless there is one of this directory *)
Definition getList (f : finder) (seg : str) (n : nat) : list str * nat :=
  let prefix := firstn 16 seg in
  let fresh := (strLstSortAsc (if fdSingle f then filter (segmentMatch seg) (dir n prefix) else dir n prefix), S n) in
  match fdList f, fdPrefix f with
  | Some l, Some p => if strEqb prefix p then (l, n) else fresh
  | _, _ => fresh
  end.
(** find.c:114-166: the result, and the list afterwards (find.c:139-141, 156-173) *)
Definition checkList (single : bool) (seg : str) (l : list str) : res (option str) * option (list str) :=
  match l with
  | [] => (Ok None, None)
  | _ =>
      let l := if single then l else dropWhile (fun s => negb (segmentMatch seg s)) l in
      let match' := if single then List.length l else countWhile (segmentMatch seg) l in
      if (1 <? match')%nat then (Err EArchiveDuplicate, None)
      else
        let result := if (match' =? 1)%nat then match l with a :: _ => Ok (Some a) | [] => UB end else Ok None in
        let l := if single then l else dropWhile (segmentMatch seg) l in
        (result, if single then None else match l with [] => None | _ => Some l end)
  end.

(** find.c:89-176: rounds until found or the wait is over *)
Fixpoint findLoop (fuel : nat) (f : finder) (w : wait) (seg : str) (n : nat) : res (option str) * finder * nat :=
  let '(l, n) := getList f seg n in
  let '(result, l) := checkList (fdSingle f) seg l in
  let f := mkFinder (fdSingle f) (fdTimeout f) (Some (firstn 16 seg)) l in
  match result with
  | Ok None =>
      let '(more, _, w) := waitMore w (now n) in
      if more then match fuel with O => (UB, f, S n) | S fuel => findLoop fuel f w seg (S n) end else (Ok None, f, S n)
  | r => (r, f, n)
  end.
(** find.c:65-197 *)
Definition walSegmentFind (fuel : nat) (f : finder) (seg : str) (n : nat) : res (option str) * finder * nat :=
  let '(r, f, n) := findLoop fuel f (waitNew (fdTimeout f) (now n)) seg (S n) in
  (match r with Ok None => if fdTimeout f =? 0 then Ok None else Err EArchiveTimeout | r => r end, f, n).

(** * The check at the end of a backup *)
(** common/compress/helper.intern.h, helper.c:45-101 *)
Inductive ctype := CNone | CBz2 | CGz | CLz4 | CZst | CXz.
Definition ctypeExt (c : ctype) : str :=
  match c with CNone => [] | CBz2 => txt ".bz2" | CGz => txt ".gz" | CLz4 => txt ".lz4" | CZst => txt ".zst" | CXz => txt ".xz" end.
Definition ctypeEqb (a b : ctype) : bool :=
  match a, b with CNone, CNone | CBz2, CBz2 | CGz, CGz | CLz4, CLz4 | CZst, CZst | CXz, CXz => true | _, _ => false end.
(** helper.c:157-176 *)
Definition ctypeFromName (name : str) : ctype :=
  match filter (fun c => strEndsWith name (ctypeExt c)) [CBz2; CGz; CLz4; CZst; CXz] with c :: _ => c | [] => CNone end.

(** complete.c.inc:93-126 and compressTypePresent(), helper.c:129-141: the filters.  A type that was not built in is an error; xz never is. *)
Inductive filt := FDecrypt | FDecompress (c : ctype) | FCompress (c : ctype) | FEncrypt.
Definition needs (present : ctype -> bool) (c : ctype) (f : filt) : res (list filt) := match c with CNone => Ok [] | _ => if present c then Ok [f] else Err EOptionInvalidValue end.
Definition copyFilters (present : ctype -> bool) (archive backup : ctype) : res (list filt) :=
  let* mid :=
    (if negb (ctypeEqb archive backup) then
       let* d := needs present archive (FDecompress archive) in
       let* c := needs present backup (FCompress backup) in
       Ok (d ++ c)
     else Ok []) in
  Ok (FDecrypt :: mid ++ [FEncrypt]).

(** Options and data of the backup: archive-check, archive-copy, archive-timeout, compress-type, timeline, WAL segment size, version, label, stop time, and mode, user and group of the data directory *)
Record bdata := mkBdata {
  bdCheck : bool; bdCopy : bool; bdTimeout : Z; bdCompress : ctype; bdTimeline : Z; bdSize : Z; bdVersion : Z; bdLabel : str; bdTimestamp : Z;
  bdMode : Z; bdUser : option str; bdGroup : option str }.
(** A WAL segment copied: where from and where to in the repository, how, and what is in the manifest (sizeRepo is left out, it is the size written) *)
Record wcopy := mkWcopy {
  wcFrom : str; wcTo : str; wcFilters : list filt; wcName : str; wcMode : Z; wcUser : option str; wcGroup : option str; wcSize : Z; wcTimestamp : Z; wcChecksum : list Z }.

(** complete.c.inc:86-163: one segment, that was found as [file].  strSubN() past the end of the text is undefined behavior. *)
Definition copySegment (present : ctype -> bool) (b : bdata) (seg file : str) : res wcopy :=
  let* filters := copyFilters present (ctypeFromName file) (bdCompress b) in
  let name := txt "pg_data/" ++ pgWalPath (bdVersion b) ++ 47 :: seg in
  let* sum := (if (List.length file <? 65)%nat then UB else decodeHex true (firstn 40 (skipn 25 file))) in
  Ok (mkWcopy file (bdLabel b ++ 47 :: name ++ ctypeExt (bdCompress b)) filters name (Z.land (bdMode b) 420) (bdUser b) (bdGroup b) (bdSize b) (bdTimestamp b) sum).
(** complete.c.inc:80-170: all segments, and the step after.  A segment that is not found is NULL if there is no timeout. *)
Fixpoint checkSegments (fuel : nat) (present : ctype -> bool) (b : bdata) (f : finder) (segs : list str) (n : nat) : res (list (str * str) * list wcopy) * nat :=
  match segs with
  | [] => (Ok ([], []), n)
  | seg :: rest =>
      let '(r, f, n) := walSegmentFind fuel f seg n in
      match r with
      | Ok (Some file) =>
          match (if bdCopy b then let* c := copySegment present b seg file in Ok [c] else Ok []) with
          | Ok c =>
              let '(r, n) := checkSegments fuel present b f rest n in
              ((let* x := r in Ok ((seg, file) :: fst x, c ++ snd x)), n)
          | Err e => (Err e, n)
          | UB => (UB, n)
          end
      | Ok None =>
          if bdCopy b then (UB, n)
          else checkSegments fuel present b f rest n
      | Err e => (Err e, n)
      | UB => (UB, n)
      end
  end.
(** complete.c.inc:43-176.  The result has the files found for the segments, and the copies. *)
Definition archiveCheckCopy (fuel range : nat) (present : ctype -> bool) (b : bdata) (lsnStart lsnStop : str) (n : nat) : res (list (str * str) * list wcopy) * nat :=
  if bdCheck b then
    match lsnFromStr lsnStart, lsnFromStr lsnStop with
    | Ok start, Ok stop =>
        match lsnRangeToWalSegmentList range (bdTimeline b) start stop (bdSize b) with
        | Ok segs => checkSegments fuel present b (finderNew (List.length segs =? 1)%nat (bdTimeout b)) segs n
        | Err e => (Err e, n)
        | UB => (UB, n)
        end
    | Err e, _ | Ok _, Err e => (Err e, n)
    | UB, _ | Ok _, UB => (UB, n)
    end
  else (Ok ([], []), n).
End Find.
