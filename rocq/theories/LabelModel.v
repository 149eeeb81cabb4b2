(** Labels of new backups.  Models src/command/backup/label.c.inc and backupLabelFormat of src/command/backup/common.c.

    The local time text "%Y%m%d-%H%M%S" of a timestamp is an argument.  The wait for the end of the second (label.c.inc:89) is not modelled. *)
From Verif Require Import Base Str ExpireModel HistExpireModel.
Open Scope Z_scope.

Inductive backupType := BFull | BDiff | BIncr.
Section Label.
  Variable format : Z -> str.

  (** common.c:48-79 backupLabelFormat; [prior] is not used for full backups *)
  Definition labelFormat (t : backupType) (prior : str) (timestamp : Z) : str :=
    match t with
    | BFull => format timestamp ++ [70]
    | BDiff => firstn 16 prior ++ 95 :: format timestamp ++ [68]
    | BIncr => firstn 16 prior ++ 95 :: format timestamp ++ [73]
    end.

  (** label.c.inc:28-31: for full backups all labels, else "^<date of the prior's full>F\_<date>(D|I)" with the end anchor *)
  Definition labelOfSet (prior s : str) : bool :=
    Nat.eqb (length s) 33 && strEqb (firstn 17 s) (firstn 15 prior ++ [70;95]) && isDateTime (firstn 15 (skipn 17 s)) &&
    (strEqb (skipn 32 s) [68] || strEqb (skipn 32 s) [73]).
  Definition labelExpression (t : backupType) (prior s : str) : bool := match t with BFull => labelAny s | _ => labelOfSet prior s end.
  (** label.c.inc:52: the expression followed by "\.manifest\.gz$" *)
  Definition historyExpression (t : backupType) (prior s : str) : bool :=
    (12 <=? length s)%nat && strEqb (skipn (length s - 12) s) manifestExt && labelExpression t prior (firstn (length s - 12) s).

  (** label.c.inc:33-39 *)
  Definition latestBackup (t : backupType) (prior : str) (dirs : list str) : option str :=
    hd_error (strLstSortDesc (filter (labelExpression t prior) dirs)).
  (** label.c.inc:41-57: of the newest year directory *)
  Definition latestHistory (t : backupType) (prior : str) (hist : list histYear) : option str :=
    match strLstSortDesc (filter isYear (map hyName hist)) with
    | [] => None
    | y :: _ =>
        match find (fun h => strEqb (hyName h) y) hist with
        | None => None
        | Some h => hd_error (strLstSortDesc (filter (historyExpression t prior) (hyFiles h)))
        end
    end.
  (** label.c.inc:55-66: the extensions are cut off *)
  Definition labelLatest (t : backupType) (prior : str) (dirs : list str) (hist : list histYear) : option str :=
    match latestBackup t prior dirs, latestHistory t prior hist with
    | b, None => b
    | None, Some h => Some (firstn (length h - 12) h)
    | Some b, Some h => if strLtb b h then Some (firstn (length h - 12) h) else Some b
    end.
  (** label.c.inc:5-101 backupLabelCreate *)
  Definition labelCreate (t : backupType) (prior : str) (timestamp : Z) (dirs : list str) (hist : list histYear) : res str :=
    let result := labelFormat t prior timestamp in
    match labelLatest t prior dirs hist with
    | None => Ok result
    | Some latest =>
        if strLeb result latest then
          let result := labelFormat t prior (timestamp + 1) in
          if strLeb result latest then Err EClock else Ok result
        else Ok result
    end.
End Label.
