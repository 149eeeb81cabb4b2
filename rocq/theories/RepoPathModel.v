(** Paths given to the repository commands.  Models src/command/repo/common.c:12-75 repoPathIsValid(), strPath() of src/common/type/string.c and the
    paths of storagePath() of src/storage/storage.c that have no expression. *)
From Verif Require Import Base Str.
Open Scope Z_scope.

Definition SL := 47.
(** strstr(path, "//") != NULL *)
Fixpoint hasDouble (s : str) : bool :=
  match s with [] => false | a :: t => match t with [] => false | b :: _ => ((a =? SL) && (b =? SL)) || hasDouble t end end.
(** string.c strEndsWith(path, "/") *)
Definition endsSlash (s : str) : bool := match rev s with c :: _ => c =? SL | [] => false end.
(** string.c:824-825, what is left of the reversed string *)
Fixpoint backToSlash (r : str) : str := match r with [] => [] | c :: t => if c =? SL then r else backToSlash t end.
(** string.c:813-832 strPath *)
Definition strPath (s : str) : str :=
  let r := backToSlash (rev s) in
  if (length r <=? 1)%nat then rev r else rev (tl r).
(** common.c:12-75 repoPathIsValid; [repo] is the path of the repository.  strSub() asserts that the start is not after the end. *)
Definition repoPathIsValid (repo path : str) : res str :=
  if hasDouble path then Err EOther
  else
    let path2 := if endsSlash path then strPath path else path in
    if strBeginsWith path2 [SL] then
      if strEqb path2 repo then Ok []
      else if negb (strEqb repo [SL]) && negb (strBeginsWith path2 (repo ++ [SL])) then Err EOther
      else
        let start := if strEqb repo [SL] then 1%nat else (length repo + 1)%nat in
        if (length path2 <? start)%nat then UB else Ok (skipn start path2)
    else Ok path2.
(** storage.c:597-694 storagePath for a relative path without an expression *)
Definition storageRel (repo rel : str) : str := if strEqb repo [SL] then SL :: rel else repo ++ SL :: rel.
