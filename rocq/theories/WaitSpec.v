(** Vocabulary of the properties of waiting. *)
From Verif Require Import Base.
Open Scope Z_scope.

(** The clock does not go back, and goes on at least by the time slept: the readings from the time [at] on *)
Fixpoint advances (from : Z) (nows : list Z) (calls : list (bool * Z)) : Prop :=
  match nows, calls with now :: nows, (_, slept) :: calls => from <= now /\ advances (now + slept) nows calls | _, _ => True end.
(** How long it sleeps first *)
Definition firstSleep (time : Z) : Z := if 1000 <=? time then 100 else time / 10.
Definition trues (calls : list (bool * Z)) : Z := Z.of_nat (length (filter fst calls)).
