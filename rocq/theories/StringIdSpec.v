(** Which strings a string id can hold. *)
From Verif Require Import Base.
Open Scope Z_scope.
(** a-z, '-', '2', '5', '6' *)
Definition char5 (c : Z) : Prop := 97 <= c <= 122 \/ c = 45 \/ c = 50 \/ c = 53 \/ c = 54.
(** a-z, A-Z, 0-9, '-' *)
Definition char6 (c : Z) : Prop := 97 <= c <= 122 \/ 65 <= c <= 90 \/ 48 <= c <= 57 \/ c = 45.
Definition fits5 (s : list Z) : Prop := (1 <= length s <= 12)%nat /\ Forall char5 s.
Definition fits6 (s : list Z) : Prop := (1 <= length s <= 10)%nat /\ Forall char6 s.
(** A sequence number: none, 0-5 always, 6-37 only when one character less than the maximum is used. *)
Definition seqOk (s : list Z) (seq : option Z) : Prop :=
  match seq with
  | None => True
  | Some n => 0 <= n < 6 \/ (6 <= n <= 37 /\ ((Forall char5 s /\ (length s < 12)%nat) \/ (~ fits5 s /\ (length s < 10)%nat)))
  end.
