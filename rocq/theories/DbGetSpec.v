(** Which clusters are to be used. *)
From Verif Require Import Base DbGetModel.

Definition isPrimary (clusters : list (option bool)) (i : nat) : Prop := nth_error clusters i = Some (Some false).
Definition isStandby (clusters : list (option bool)) (i : nat) : Prop := nth_error clusters i = Some (Some true).
(** The primary is the only one, and there is none just if no cluster is. *)
Definition primaryIs (clusters : list (option bool)) (p : option nat) : Prop :=
  match p with None => forall i, ~ isPrimary clusters i | Some i => forall j, isPrimary clusters j <-> j = i end.
(** The standby is the first one. *)
Definition standbyIs (clusters : list (option bool)) (s : option nat) : Prop :=
  match s with None => forall i, ~ isStandby clusters i | Some i => isStandby clusters i /\ forall j, (j < i)%nat -> ~ isStandby clusters j end.
Definition right (primaryOnly primaryRequired standbyRequired : bool) (clusters : list (option bool)) (r : found) : Prop :=
  primaryIs clusters (fPrimary r) /\ (if primaryOnly then fStandby r = None else standbyIs clusters (fStandby r)) /\
  (primaryRequired = true -> fPrimary r <> None) /\ (standbyRequired = true -> fStandby r <> None).
