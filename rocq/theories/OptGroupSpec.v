(** What the indexes of a group are *)
From Coq Require Import Sorting.Sorted.
From Verif Require Import Base Str OptNameModel OptLoadModel.
Open Scope Z_scope.
Open Scope list_scope.

(** The key has a value, which is not reset, in a valid option of the group *)
Definition keyUsed (rules : list rule) (valid : nat -> bool) (t : table) (g : nat) (k : Z) : Prop :=
  exists i r v, nth_error rules i = Some r /\ rGroup r = Some g /\ valid i = true /\ getOpt t i k = Some v /\ pvReset v = false.

(** The keys of a group: in order, those used; key 1 alone if there are none; key 1 always for pg *)
Definition keysOf (pg : bool) (f : Z -> Prop) (map : list Z) : Prop :=
  StronglySorted Z.lt map /\
  (forall k, In k map <-> (0 <= k < 256 /\ f k) \/ (k = 0 /\ (pg = true \/ forall j, 0 <= j < 256 -> ~ f j))).

(** What stays of a list if only the places in [keep] stay *)
Fixpoint kept {A} (keep : nat -> bool) (n : nat) (l : list A) : list A := match l with [] => [] | a :: r => if keep n then a :: kept keep (S n) r else kept keep (S n) r end.
(** Each group has at least one index *)
Definition left {A} (keep : nat -> bool) (l : list A) : list A := match kept keep 0 l with [] => firstn 1 l | r => r end.
