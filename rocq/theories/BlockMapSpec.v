(** Vocabulary of the block map properties. *)
From Verif Require Import Base BlockMapModel.
Open Scope Z_scope.

(** Field ranges: the reference is shifted by three bits in 32-bit arithmetic, sizes and size differences in 64-bit arithmetic. *)
Definition itemOk (cs : nat) (x : item) : Prop :=
  0 <= iRef x < 2 ^ 29 /\ 0 < iSbs x < 2 ^ 62 /\ 0 <= iBundle x < 2 ^ 64 /\ 0 <= iOff x /\ 0 < iSize x < 2 ^ 60 /\ iOff x + iSize x < 2 ^ 64 /\
  0 <= iBlock x < 2 ^ 31 /\ length (iSum x) = cs.

(** Blocks of one backup appear in the map in the order they are stored in that backup: [a] before [b]. *)
Definition orderOk (a b : item) : Prop :=
  iBundle a = iBundle b /\ iOff a <= iOff b /\
  (iOff a = iOff b -> iSbs a = iSbs b /\ iSize a = iSize b /\ iBlock a < iBlock b) /\ (iOff a < iOff b -> iOff a + iSize a <= iOff b).
(** Neighbours in the map from one backup are neighbours in that backup. *)
Definition nextOk (a b : item) : Prop := (iOff a = iOff b -> iBlock b = iBlock a + 1) /\ (iOff a < iOff b -> iOff b = iOff a + iSize a).

Definition mapOk (cs : nat) (m : list item) : Prop :=
  Forall (itemOk cs) m /\
  forall pre a mid b post, m = pre ++ a :: mid ++ b :: post -> iRef a = iRef b -> orderOk a b /\ (mid = [] -> nextOk a b).
