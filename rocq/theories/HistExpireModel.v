(** Expiration of backup history manifests.  Models src/command/expire/expire.c:935-1026 removeExpiredHistory.

    backup.history holds one directory per year with files "<label>.manifest.gz".  The label of the retention threshold
    (backupLabelFormat of now - retention days) is given.  Logging is not modelled; dry run is the caller ignoring the operations. *)
From Verif Require Import Base Str ExpireModel.
Open Scope Z_scope.

Record histYear := mkHistYear { hyName : str; hyFiles : list str }.
Inductive histOp :=
| HRmYear (year : str)            (* remove backup.history/<year> recursively *)
| HRmFile (year file : str).

(** expire.c:960 "^2[0-9]{3}$" *)
Definition isYear (s : str) : bool := Nat.eqb (length s) 4 && strEqb (firstn 1 s) [50] && forallb isDigit s.
(** ".manifest.gz" *)
Definition manifestExt : str := [46;109;97;110;105;102;101;115;116;46;103;122].
(** expire.c:988-991: backupRegExp (begin anchored) followed by "\.manifest\.gz$". *)
Definition isHistFile (s : str) : bool :=
  (12 <=? length s)%nat && strEqb (skipn (length s - 12) s) manifestExt && labelAny (firstn (length s - 12) s).
(** expire.c:997: part before the first '.'. *)
Fixpoint beforeDot (s : str) : str :=
  match s with [] => [] | c :: r => if c =? 46 then [] else c :: beforeDot r end.

(** expire.c:963-1020.  [years] is the sorted list of years found in the listed repository. *)
Fixpoint histLoop (minLabel : str) (current : list str) (years : list histYear) : list histOp :=
  match years with
  | [] => []
  | y :: r =>
      if strLtb (hyName y) (firstn 4 minLabel) then HRmYear (hyName y) :: histLoop minLabel current r
      else if strEqb (hyName y) (firstn 4 minLabel) then
        map (HRmFile (hyName y))
          (filter (fun f => negb (strLstExists current (beforeDot f)) && strLtb (beforeDot f) minLabel)
             (strLstSortDesc (filter isHistFile (hyFiles y))))
        ++ histLoop minLabel current r
      else []
  end.

(** removeExpiredHistory: [listed] is the history of the repository returned by storageRepo(), which is the default repository and not
    the repository being expired (expire.c:960,987); the operations are done on the repository being expired (978,1010).
    [retention] is None when repo-retention-history is not set. *)
Definition removeExpiredHistory (retention : option str) (current : list str) (listed : list histYear) : list histOp :=
  match retention with
  | None => []
  | Some minLabel => histLoop minLabel current (sortBy hyName strLeb (filter (fun y => isYear (hyName y)) listed))
  end.

(** The operations on a repository: a year directory or a file that is not there is not an error. *)
Definition histApply1 (o : histOp) (years : list histYear) : list histYear :=
  match o with
  | HRmYear y => filter (fun x => negb (strEqb (hyName x) y)) years
  | HRmFile y f =>
      map (fun x => if strEqb (hyName x) y then mkHistYear (hyName x) (filter (fun g => negb (strEqb g f)) (hyFiles x)) else x) years
  end.
Definition histApply (ops : list histOp) (years : list histYear) : list histYear := fold_left (fun s o => histApply1 o s) ops years.
