(** LSNs and WAL segment names.  Models src/postgres/interface.c:578-686 and src/command/archive/common.c:352-424. *)
From Verif Require Import Base Str ConvertModel NumModel.
Open Scope Z_scope.

(** strLstNewSplit(s, "/"): parts between slashes (src/common/type/stringList.c). *)
Fixpoint splitOn (c : Z) (s : str) : list str :=
  match s with
  | [] => [[]]
  | x :: r => if x =? c then [] :: splitOn c r
              else match splitOn c r with p :: ps => (x :: p) :: ps | [] => [[x]] end
  end.

(** interface.c:579-598 pgLsnFromStr; << 32 and + wrap at 64 bits. *)
Definition lsnFromStr (s : str) : res Z :=
  match splitOn 47 s with
  | [hi; lo] =>
      let* h := cvtZToUInt64 16 hi in
      let* l := cvtZToUInt64 16 lo in
      Ok ((h * two32 mod two64 + l) mod two64)
  | _ => Err EFormat
  end.
(** interface.c:601-608 pgLsnToStr "%x/%x" *)
Definition lsnToStr (lsn : Z) : str := numText false 16 (lsn / two32) ++ 47 :: numText false 16 (lsn mod two32).

(** "%08X" *)
Definition hex8 (n : Z) : str := padText 8 (numText true 16 n).
Definition walName (timeline major minor : Z) : str := hex8 timeline ++ hex8 major ++ hex8 minor.
(** interface.c:612-622 pgLsnToWalSegment *)
Definition lsnToWalSegment (timeline lsn size : Z) : str := walName timeline (lsn / two32) (lsn mod two32 / size).
(** interface.c:626-636 pgTimelineFromWalSegment *)
Definition timelineFromWalSegment (w : str) : res Z := if Nat.eqb (length w) 24 then cvtZSubNToUInt 16 w 0 8 else Err EAssert.

(** interface.c:640-686 pgLsnRangeToWalSegmentList; the loop with 32-bit wrap.  [fuel] bounds the number of iterations; running out of
    it would mean the loop goes on ([UB]). *)
Fixpoint lsnRangeLoop (fuel : nat) (timeline perMajor major minor stopMajor stopMinor : Z) : res (list str) :=
  if (major =? stopMajor) && (minor =? stopMinor) then Ok []
  else match fuel with
  | O => UB
  | S f =>
      let minor1 := (minor + 1) mod two32 in
      let '(major', minor') := if perMajor <? minor1 then ((major + 1) mod two32, 0) else (major, minor1) in
      let* r := lsnRangeLoop f timeline perMajor major' minor' stopMajor stopMinor in
      Ok (walName timeline major' minor' :: r)
  end.
Definition lsnRangeToWalSegmentList (fuel : nat) (timeline start stop size : Z) : res (list str) :=
  if (timeline =? 0) || (stop <? start) || (size =? 0) then Err EAssert
  else
    let startMajor := start / two32 in
    let startMinor := start mod two32 / size in
    let* r := lsnRangeLoop fuel timeline ((two32 - 1) / size) startMajor startMinor (stop / two32) (stop mod two32 / size) in
    Ok (walName timeline startMajor startMinor :: r).

(** common.c:353-387 walSegmentNext.  strtol() of 8 characters without validation; value 0 when there are no digits. *)
Definition strtolU32 (s : str) : Z := let '(v, _, _) := strtoll 16 s in v mod two32.
Definition walSegmentNext (w : str) (size : Z) : res str :=
  if negb (Nat.eqb (length w) 24) || negb ((two32 - 1) mod size =? size - 1) then Err EAssert
  else
    let* timeline := timelineFromWalSegment w in
    let major := strtolU32 (firstn 8 (skipn 8 w)) in
    let minor := strtolU32 (firstn 8 (skipn 16 w)) in
    let minor1 := (minor + 1) mod two32 in
    Ok (if (two32 - 1) / size <? minor1 then walName timeline ((major + 1) mod two32) 0 else walName timeline major minor1).
(** common.c:391-424 walSegmentRange *)
Fixpoint walRangeLoop (n : nat) (w : str) (size : Z) : res (list str) :=
  match n with
  | O => Ok []
  | S k => let* next := walSegmentNext w size in let* r := walRangeLoop k next size in Ok (next :: r)
  end.
Definition walSegmentRange (w : str) (size : Z) (range : nat) : res (list str) :=
  match range with O => Err EAssert | S k => let* r := walRangeLoop k w size in Ok (w :: r) end.
