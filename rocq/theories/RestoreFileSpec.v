(** Vocabulary of the restore properties. *)
From Verif Require Import Base BlockMapModel BlockMapSpec BlockIncrSpec.
Open Scope Z_scope.

(** [n] bytes at [off] of [f] exist and are [d]. *)
Definition sliceIs (f : list Z) (off n : nat) (d : list Z) : Prop := (off + n <= length f)%nat /\ d = firstn n (skipn off f).

(** The map item [x] leads to the block [b]: the super block it describes is in the repository, decodes, and has [b] at its place. *)
Definition holds (decB : list Z -> res (list Z)) (repo : Z -> Z -> option (list Z)) (bs : nat) (x : item) (b : list Z) : Prop :=
  exists f e raw bl, repo (iRef x) (iBundle x) = Some f /\ sliceIs f (Z.to_nat (iOff x)) (Z.to_nat (iSize x)) e /\ decB e = Ok raw /\
    Z.of_nat (length raw) = iSbs x /\ isBlocks bs raw bl /\ nth_error bl (Z.to_nat (iBlock x)) = Some b.

(** No two different blocks at the same place of the two contents have the same hash. *)
Definition noCollision (hash : list Z -> list Z) (bs : nat) (c1 c2 : list Z) : Prop :=
  forall bl1 bl2 i b1 b2, isBlocks bs c1 bl1 -> isBlocks bs c2 bl2 -> nth_error bl1 i = Some b1 -> nth_error bl2 i = Some b2 -> hash b1 = hash b2 -> b1 = b2.

(** The map leads to the content [v]. *)
Definition mapHolds (hash : list Z -> list Z) (decB : list Z -> res (list Z)) (repo : Z -> Z -> option (list Z)) (bs : nat) (m : list item) (v : list Z) : Prop :=
  exists bl, isBlocks bs v bl /\ length m = length bl /\
    forall i x b, nth_error m i = Some x -> nth_error bl i = Some b -> holds decB repo bs x b /\ iSum x = hash b.
