(** What reading with retries gives. *)
From Verif Require Import Base MultiModel MultiSpec RetryModel.
Open Scope Z_scope.

(** The bytes of the file in the range asked for *)
Definition asked (content : list Z) (off : Z) (lim : option Z) : list Z := bytesIn content 0 off (match lim with None => None | Some l => Some (off + l) end).
(** The file is the same whenever it is opened again. *)
Definition stable (content : list Z) (evs : list event) : Prop := forall k e c, In (Fails k e (inl c)) evs -> c = content.
(** A failure after which there is another try *)
Definition passing (x : event) : Prop := exists k e c, x = Fails k e (inl c) /\ e <> EFileMissing.
(** What comes of a read with up to [tries] tries: after fewer failures than that, either bytes or the error. *)
Inductive outcome (tries : nat) (evs : list event) : option errkind -> Prop :=
| ODone before k after : evs = before ++ Gives k :: after -> Forall passing before -> (length before < tries)%nat -> outcome tries evs None
| OLast before k e again after : evs = before ++ Fails k e again :: after -> Forall passing before -> S (length before) = tries -> outcome tries evs (Some e)
| OMissing before k again after : evs = before ++ Fails k EFileMissing again :: after -> Forall passing before -> (S (length before) < tries)%nat -> outcome tries evs (Some EFileMissing)
| OOpen before k e e2 after : evs = before ++ Fails k e (inr e2) :: after -> Forall passing before -> e <> EFileMissing -> (S (length before) < tries)%nat -> outcome tries evs (Some e2).
