(** Expressions for database paths and relations, and the removal of unlogged relations from the manifest.  Models the expressions of
    src/info/manifest/manifest.c:73-75, 140-143 and the loop of manifestNewBuild() (src/info/manifest/manifest.c:228-296).

    The manifest is the list of names of its files, sorted as lstSort() has left it.  manifestFileExists() is a search for the name in it (src/info/manifest/
    manifest.h:381-386) and manifestFileRemove() (store.c.inc:472-487) removes the file at the place of the loop, since names differ.  Left out: the check of
    the size of the memory context with DEBUG_MEM. *)
From Coq Require Import String.
From Verif Require Import Base Str ArchiveIdModel RegModel RegNameModel LinkCheckModel SelectModel.
Open Scope Z_scope.
Open Scope list_scope.

(** manifest.c:73 RELATION_EXP *)
Definition relationPart : str := txt "[0-9]+(_(fsm|vm)){0,1}(\.[0-9]+){0,1}".
(** manifest.c:74-75 DB_PATH_EXP; the tablespace id is put for %s *)
Definition dbPathPart (tid : str) : str := txt "(pg_data/(global|base/[0-9]+)|pg_tblspc/[0-9]+/" ++ tid ++ txt "/[0-9]+)".
(** manifest.c:140, 143, 233 *)
Definition dbPathExp (tid : str) : str := txt "^" ++ dbPathPart tid ++ txt "$".
Definition tempRelationExp : str := txt "^t[0-9]+_" ++ relationPart ++ txt "$".
Definition relationExp (tid : str) : str := txt "^" ++ dbPathPart tid ++ txt "/" ++ relationPart ++ txt "$".

(** manifest.c:253-266 the digits at the start of the name *)
Fixpoint leadingDigits (s : str) : str := match s with c :: r => if isDigit c then c :: leadingDigits r else [] | [] => [] end.
(** manifest.c:274-276 the name of the init fork: the path with its slash, the file id and _init *)
Definition initName (f id : str) : str := firstn (length f - length (strBase f)) f ++ id ++ txt "_init".

(** manifest.c:243-294.  [kept] are the files before the place of the loop, last first.  The buffer for the id has 21 characters and the length of the digits
    is not checked, so more than 20 digits are written past its end. *)
Fixpoint removeUnlogged (rel : re) (kept todo : list str) (lastId : str) (lastUnlogged : bool) : res (list str) :=
  match todo with
  | [] => Ok (rev kept)
  | f :: r =>
    if regExpMatch rel f then
      let id := leadingDigits (strBase f) in
      if (20 <? length id)%nat then UB
      else
        let unlogged := if strEqb lastId id then lastUnlogged else strLstExists (rev kept ++ todo) (initName f id) in
        if unlogged then removeUnlogged rel kept r id unlogged else removeUnlogged rel (f :: kept) r id unlogged
    else removeUnlogged rel (f :: kept) r lastId lastUnlogged
  end.
(** manifest.c:228-296 *)
Definition manifestRemoveUnlogged (tid : str) (files : list str) : res (list str) :=
  let* rel := regExpNew (relationExp tid) in removeUnlogged rel [] files [] false.
