(** The PostgreSQL history of the info files and archive ids.  Models src/info/infoPg.c (set, load, save of the history, archive id),
    src/info/infoArchive.c:108-163 and src/postgres/interface.c:735-770.

    Simplifications: the history lines of the file are given as (id, version text, system id), the JSON and ini text around them is modelled
    elsewhere; catalog and control versions (backup.info only) are left out; ASSERTs are left out. *)
From Verif Require Import Base Str ConvertModel NumModel.
Open Scope Z_scope.

(** src/postgres/interface.c:759-770 pgVersionToStr, PG_VERSION_10 is 100000 *)
Definition pgVersionToStr (version : Z) : str :=
  if 100000 <=? version then cvtUIntToZ (version / 10000) else cvtUIntToZ (version / 10000) ++ [46] ++ cvtUIntToZ (version mod 10000 / 100).

(** the regular expression ^[0-9]+[.]*[0-9]+$ : digits, then dots, then digits *)
Definition isDigit (c : Z) : bool := (48 <=? c) && (c <=? 57).
Fixpoint spanB (p : Z -> bool) (s : str) : str * str :=
  match s with c :: r => if p c then let '(a, b) := spanB p r in (c :: a, b) else ([], s) | [] => ([], []) end.
Definition versionRegExp (s : str) : bool :=
  let '(d1, r1) := spanB isDigit s in
  let '(dots, r2) := spanB (Z.eqb 46) r1 in
  let '(d2, r3) := spanB isDigit r2 in
  match r3 with
  | [] => match dots with [] => (2 <=? length d1)%nat | _ => match d1, d2 with _ :: _, _ :: _ => true | _, _ => false end end
  | _ => false
  end.
(** string.c:1031 strChr *)
Fixpoint strChr (s : str) (c : Z) : option nat :=
  match s with [] => None | x :: r => if x =? c then Some O else option_map S (strChr r c) end.
Definition u32 (x : Z) : Z := x mod 2 ^ 32.
(** src/postgres/interface.c:734-757 pgVersionFromStr *)
Definition pgVersionFromStr (s : str) : res Z :=
  if negb (versionRegExp s) then Err EAssert
  else match strChr s 46 with
       | None => let* v := cvtZToUInt 10 s in Ok (u32 (v * 10000))
       | Some i => let* a := cvtZSubNToUInt 10 s 0 i in let* b := cvtZToUInt 10 (skipn (i + 1) s) in Ok (u32 (u32 (a * 10000) + u32 (b * 100)))
       end.

(** infoPg.h:24-45 InfoPgData, infoPg.c:21-29 *)
Record pgData := mkPg { pdId : Z; pdVersion : Z; pdSystemId : Z }.
Record infoPg := mkInfoPg { ipHistory : list pgData; ipCurrent : nat }.

(** infoPg.c:210-226 infoPgAdd *)
Definition infoPgAdd (this : infoPg) (d : pgData) : infoPg := mkInfoPg (d :: ipHistory this) 0.
(** infoPg.c:229-272 infoPgSet; lstGet of a missing item is an AssertError (list.c) *)
Definition infoPgSet (this : infoPg) (version systemId : Z) : res infoPg :=
  let* id := match ipHistory this with
             | [] => Ok 1
             | _ => match nth_error (ipHistory this) (ipCurrent this) with Some d => Ok (u32 (pdId d + 1)) | None => Err EAssert end
             end in
  Ok (infoPgAdd this (mkPg id version systemId)).
(** infoPg.c:65-82 infoPgNew with infoArchive.c:60-83 infoArchiveNew *)
Definition infoPgEmpty : infoPg := mkInfoPg [] 0.
Definition infoArchiveNew (version systemId : Z) : res infoPg := infoPgSet infoPgEmpty version systemId.

(** infoPg.c:388-405 infoPgArchiveId: "%s-%u" *)
Definition archiveIdOf (d : pgData) : str := pgVersionToStr (pdVersion d) ++ [45] ++ cvtUIntToZ (pdId d).

(** infoArchive.c:126-136, 141-150: first entry that fits *)
Fixpoint findFirst (p : pgData -> bool) (l : list pgData) : option str :=
  match l with [] => None | d :: r => if p d then Some (archiveIdOf d) else findFirst p r end.
(** infoArchive.c:109-163 infoArchiveIdHistoryMatch *)
Definition historyMatch (this : infoPg) (historyId version systemId : Z) : res str :=
  let exact := findFirst (fun d => (historyId =? pdId d) && (systemId =? pdSystemId d) && (version =? pdVersion d)) (ipHistory this) in
  let archiveId := match exact with
                   | Some a => Some a
                   | None => findFirst (fun d => (systemId =? pdSystemId d) && (version =? pdVersion d)) (ipHistory this)
                   end in
  match archiveId with Some a => Ok a | None => Err EArchiveMismatch end.

(** infoPg.c:314-349: the db:history lines, oldest first, and the id of the db section *)
Record pgFile := mkPgFile { pfLines : list (str * str * Z); pfCurrentId : option Z }.
Definition infoPgSave (this : infoPg) : res pgFile :=
  match nth_error (ipHistory this) (ipCurrent this) with
  | None => Err EAssert
  | Some d => Ok (mkPgFile (map (fun d => (cvtUIntToZ (pdId d), pgVersionToStr (pdVersion d), pdSystemId d)) (rev (ipHistory this))) (Some (pdId d)))
  end.

(** infoPg.c:124-149: each history line is inserted at the front *)
Fixpoint loadLines (lines : list (str * str * Z)) (history : list pgData) : res (list pgData) :=
  match lines with
  | [] => Ok history
  | (key, version, systemId) :: r =>
      let* id := cvtZToUInt 10 key in
      let* v := pgVersionFromStr version in
      loadLines r (mkPg id v systemId :: history)
  end.
(** infoPg.c:196-202: the last index with the id *)
Fixpoint findLast (id : Z) (l : list pgData) (idx : nat) (found : option nat) : option nat :=
  match l with [] => found | d :: r => findLast id r (S idx) (if pdId d =? id then Some idx else found) end.
(** infoPg.c:157-208 infoPgNewLoad *)
Definition infoPgNewLoad (f : pgFile) : res infoPg :=
  let* history := loadLines (pfLines f) [] in
  match history with
  | [] => Err EFormat
  | _ => let currentId := match pfCurrentId f with Some i => i | None => 0 end in
         if currentId =? 0 then Err EFormat
         else match findLast currentId history 0 None with Some i => Ok (mkInfoPg history i) | None => Err EFormat end
  end.
