(** Vocabulary of the block incremental properties. *)
From Verif Require Import Base.
Local Open Scope nat_scope.

(** [bl] is [data] cut into blocks of [bs] bytes, only the last one may be shorter. *)
Definition isBlocks (bs : nat) (data : list Z) (bl : list (list Z)) : Prop :=
  concat bl = data /\ forall pre b post, bl = pre ++ b :: post -> 0 < length b <= bs /\ (post <> [] -> length b = bs).
