(** Timeline verification before a restore.  Models src/command/restore/timeline.c.

    The content of the history file of a timeline (storage, decompression and decryption) is an argument, as is the listing of the archive
    directory.  The ASSERTs that parsed timelines and LSNs are not zero (not compiled in production) are left out. *)
From Verif Require Import Base Str ConvertModel NumModel LsnModel SpoolModel.
Open Scope Z_scope.

(** timeline.c:22-26 HistoryItem: parent timeline, boundary lsn *)
Definition histItem : Type := Z * Z.
(** timeline.c:41-66: one line *)
Definition historyLine (raw : str) : res (option histItem) :=
  let line := strTrim raw in
  match line with
  | [] => Ok None
  | c :: _ =>
      if c =? 35 then Ok None
      else match splitOn 9 line with
           | t :: l :: _ => let* timeline := cvtZToUInt 10 t in let* lsn := lsnFromStr l in Ok (Some (timeline, lsn))
           | _ => Err EFormat
           end
  end.
Fixpoint historyLines (lines : list str) : res (list histItem) :=
  match lines with
  | [] => Ok []
  | x :: r => let* i := historyLine x in let* l := historyLines r in Ok (match i with Some h => h :: l | None => l end)
  end.
(** timeline.c:28-74 historyParse *)
Definition historyParse (history : str) : res (list histItem) := historyLines (splitOn 10 history).
(** timeline.c:79-115 historyLoad: errors of parsing become FormatError *)
Definition historyLoad (read : Z -> res str) (timeline : Z) : res (list histItem) :=
  let* history := read timeline in
  match historyParse history with Ok l => Ok l | Err _ => Err EFormat | UB => UB end.

(** timeline.c:134 "[0-F]{8}\.history", not anchored *)
Definition histSuffix : str := [46;104;105;115;116;111;114;121].
Definition histHere (s : str) : bool :=
  (8 <=? length s)%nat && forallb (fun c => (48 <=? c) && (c <=? 70)) (firstn 8 s) && strEqb (firstn 8 (skipn 8 s)) histSuffix.
Fixpoint histExpression (s : str) : bool := histHere s || match s with [] => false | _ :: r => histExpression r end.
(** timeline.c:120-151 timelineLatest *)
Definition timelineLatest (names : list str) (current : Z) : res Z :=
  match strLstSortDesc (filter histExpression names) with
  | [] => Ok current
  | f :: _ => let* latest := cvtZToUInt 16 (firstn 8 f) in Ok (if current <? latest then latest else current)
  end.

(** DbMismatchError with its three messages *)
Inductive verdict :=
| Accept
| BadTarget                                             (* timeline.c:219 *)
| Forked (lsnFound : Z)                                 (* timeline.c:265-271 *)
| NotInHistory.                                         (* timeline.c:280-284 *)
(** timeline.c:236-247 *)
Definition historyHas (backup lsn : Z) (h : list histItem) : bool := existsb (fun i => (fst i =? backup) && (lsn <? snd i)) h.
(** timeline.c:252-263: the last one *)
Definition forkedAt (backup : Z) (h : list histItem) : option Z :=
  fold_left (fun r i => if fst i =? backup then Some (snd i) else r) h None.
Definition currentStr : str := [99;117;114;114;101;110;116].
Definition latestStr : str := [108;97;116;101;115;116].
Definition pgVersion11 : Z := 110000.
(** timeline.c:180-186: the default *)
Definition targetStr (version : Z) (immediate : bool) (target : option str) : str :=
  match target with
  | Some s => s
  | None => if (version <=? pgVersion11) || immediate then currentStr else latestStr
  end.
(** timeline.c:208-215 *)
Definition targetNumber (s : str) : res Z := if strEqb (firstn 2 s) [48;120] then cvtZToUInt 16 (skipn 2 s) else cvtZToUInt 10 s.
(** timeline.c:226-287 *)
Definition verifyTarget (read : Z -> res str) (backup lsn target : Z) : res verdict :=
  if target =? backup then Ok Accept
  else
    let* h := historyLoad read target in
    if historyHas backup lsn h then Ok Accept
    else Ok (match forkedAt backup h with Some l => Forked l | None => NotInHistory end).
(** timeline.c:156-292 timelineVerify *)
Definition timelineVerify (read : Z -> res str) (names : list str) (version backup lsn : Z) (target : option str) (immediate : bool) : res verdict :=
  let s := targetStr version immediate target in
  if strEqb s currentStr then Ok Accept
  else if strEqb s latestStr then let* t := timelineLatest names backup in verifyTarget read backup lsn t
  else match targetNumber s with
       | Ok t => verifyTarget read backup lsn t
       | Err _ => Ok BadTarget
       | UB => UB
       end.

(** src/command/restore/restore.c:65-77: the backup's first WAL segment and start LSN; the stop LSN of the manifest is not used *)
Definition restoreTimeline (read : Z -> res str) (names : list str) (version : Z) (archiveStart lsnStart lsnStop : str) (target : option str) (immediate : bool) : res verdict :=
  let* backup := cvtZToUInt 16 (firstn 8 archiveStart) in
  let* lsn := lsnFromStr lsnStart in
  timelineVerify read names version backup lsn target immediate.
