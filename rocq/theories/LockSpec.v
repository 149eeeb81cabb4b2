(** What holding a lock means, and executions without overlap. *)
From Verif Require Import Base LockModel.
Open Scope nat_scope.

(** Between a successful lockAcquire and lockRelease *)
Definition holdsFd (s : lst) (p : nat) : Prop := exists i, pcs s p = Held i.
Definition holds (s : lst) (p : nat) : Prop := holdsFd s p \/ pcs s p = HeldExec.
(** The process has opened the lock file and does not hold its lock (yet). *)
Definition between (s : lst) (p : nat) : Prop :=
  exists i, pcs s p = Opened i \/ pcs s p = Blocked i \/ pcs s p = ROpened i \/ pcs s p = RNo i \/ pcs s p = RHas i.
(** A step without overlap: the file is not removed while another process is about to lock it, and lockRead removes only files nobody has locked. *)
Definition quietStep (s : lst) (a : act) : Prop :=
  match a with
  | AUnlink p => holdsFd s p -> forall q, q <> p -> ~ between s q
  | ARUnlink p => (exists i, pcs s p = RHas i) /\ forall q, q <> p -> ~ between s q
  | _ => True
  end.
(** Also, processes that hold or are getting the lock do not die, and those that share a lock by exec id release before the one with the file. *)
Definition orderlyStep (execOf : nat -> Z) (s : lst) (a : act) : Prop :=
  quietStep s a /\
  match a with
  | ADie p => forall i, pcs s p <> Locked i /\ pcs s p <> Held i
  | AUnlink p => holdsFd s p -> forall q, pcs s q = HeldExec -> execOf q <> execOf p
  | _ => True
  end.
(** All steps of a run satisfy [P]. *)
Fixpoint along (execOf : nat -> Z) (P : lst -> act -> Prop) (s : lst) (l : list act) : Prop :=
  match l with
  | [] => True
  | a :: r => P s a /\ match step execOf s a with Some s' => along execOf P s' r | None => True end
  end.
