(** Finding the primary and a standby.  Models src/db/helper.c:50-148 dbGet().

    What connecting to each configured cluster gives is a parameter: an error (None) or whether it is a standby.  Warnings and closing
    the connections that are not used are left out; all errors are DbConnectError, EOther here. *)
From Verif Require Import Base.

Record found := mkFound { fPrimary : option nat; fStandby : option nat }.
(** helper.c:68-127, the loop from cluster [idx] on *)
Fixpoint dbLoop (primaryOnly : bool) (idx : nat) (clusters : list (option bool)) (r : found) : res found :=
  match clusters with
  | [] => Ok r
  | None :: t => dbLoop primaryOnly (S idx) t r
  | Some true :: t =>
      dbLoop primaryOnly (S idx) t
        (if (match fStandby r with None => true | Some _ => false end) && negb primaryOnly then mkFound (fPrimary r) (Some idx) else r)
  | Some false :: t =>
      match fPrimary r with
      | Some _ => Err EOther
      | None => dbLoop primaryOnly (S idx) t (mkFound (Some idx) (fStandby r))
      end
  end.
(** helper.c:50-148 dbGet; [standbyRequired] is whether backup-standby is y *)
Definition dbGet (primaryOnly primaryRequired standbyRequired : bool) (clusters : list (option bool)) : res found :=
  let* r := dbLoop primaryOnly 0 clusters (mkFound None None) in
  if (match fPrimary r with None => true | _ => false end) && primaryRequired then Err EOther
  else if (match fStandby r with None => true | _ => false end) && standbyRequired then Err EOther
  else Ok r.
