(** What a list is, without cells *)
From Coq Require Import Sorting.Permutation Sorting.Sorted.
From Verif Require Import Base Str ListModel.
Open Scope Z_scope.
Open Scope list_scope.

Section ListSpec.
Context {A : Type}.

(** The comparator orders the items *)
Definition isOrder (cmp : A -> A -> Z) : Prop :=
  (forall a b, cmp a b < 0 <-> 0 < cmp b a) /\ (forall a b c, cmp a b <= 0 -> cmp b c <= 0 -> cmp a c <= 0).
Definition sortedAs (o : lorder) (cmp : A -> A -> Z) (xs : list A) : Prop :=
  match o with
  | ONone => True
  | OAsc => StronglySorted (fun a b => cmp a b <= 0) xs
  | ODesc => StronglySorted (fun a b => cmp b a <= 0) xs
  end.

(** The cells from the start of the list on are the items, in this order, and if the list says that it is sorted then it is *)
Definition holds (l : lst A) (xs : list A) : Prop :=
  (exists pre post, liCells l = pre ++ map Some xs ++ post /\ length pre = liOff l) /\ liSize l = length xs /\
  (isOrder (liCmp l) -> sortedAs (liOrder l) (liCmp l) xs).

(** A place of an item that equals [x]; the first one if the list is not sorted *)
Definition foundAt (o : lorder) (cmp : A -> A -> Z) (xs : list A) (x : A) (r : option nat) : Prop :=
  match r with
  | Some i => exists y, nth_error xs i = Some y /\ cmp x y = 0 /\ (o = ONone -> forall j z, (j < i)%nat -> nth_error xs j = Some z -> cmp x z <> 0)
  | None => forall y, In y xs -> cmp x y <> 0
  end.

(** qsort() *)
Definition sorts (qs : (A -> A -> Z) -> list A -> list A) : Prop :=
  (forall cmp l, Permutation (qs cmp l) l) /\
  (forall cmp l, (forall a b c, cmp a b <= 0 -> cmp b c <= 0 -> cmp a c <= 0) -> (forall a b, cmp a b <= 0 \/ cmp b a <= 0) ->
                 StronglySorted (fun a b => cmp a b <= 0) (qs cmp l)).

(** * Sequences of calls on plain sequences.  [aFront] tells that the first item has been removed at some time. *)
Record aseq := mkA { aItems : list A; aCmp : A -> A -> Z; aFront : bool }.
Definition without (xs : list A) (i : nat) : list A := firstn i xs ++ skipn (S i) xs.
Definition withAt (xs : list A) (i : nat) (x : A) : list A := firstn i xs ++ x :: skipn i xs.
Definition front (i : nat) (b : bool) : bool := if (i =? 0)%nat then true else b.
Inductive astep : aseq -> lop A -> aseq -> Prop :=
| AInsert xs c f i x : (i <= length xs)%nat -> astep (mkA xs c f) (LInsert i x) (mkA (withAt xs i x) c f)
| AAdd xs c f x : astep (mkA xs c f) (LAdd x) (mkA (xs ++ [x]) c f)
| ARemoveIdx xs c f i : (i < length xs)%nat -> astep (mkA xs c f) (LRemoveIdx i) (mkA (without xs i) c (front i f))
| ARemove xs c f x y i : nth_error xs i = Some y -> c x y = 0 -> astep (mkA xs c f) (LRemove x) (mkA (without xs i) c (front i f))
| AMissing xs c f x : (forall y, In y xs -> c x y <> 0) -> astep (mkA xs c f) (LRemove x) (mkA xs c f)
| ARemoveLast xs c f y : astep (mkA (xs ++ [y]) c f) LRemoveLast (mkA xs c (front (length xs) f))
| ASort xs c f o ys : Permutation ys xs -> sortedAs o c ys -> astep (mkA xs c f) (LSort o) (mkA ys c f)
| AComparator xs c f c' : astep (mkA xs c f) (LComparator c') (mkA xs c' f)
| AClear xs c : astep (mkA xs c false) LClear (mkA [] c false).
Inductive arun : aseq -> list (lop A) -> aseq -> Prop :=
| ARunNil s : arun s [] s
| ARunCons s op s' r s'' : astep s op s' -> arun s' r s'' -> arun s (op :: r) s''.

(** What the caller must see to: places are in the list, the comparators are orders, the list is cleared only if the first item was never removed, and no more
    than [m] items are in the list *)
Definition fits (s : aseq) (op : lop A) : Prop :=
  match op with
  | LInsert i _ => (i <= length (aItems s))%nat
  | LRemoveIdx i => (i < length (aItems s))%nat
  | LRemoveLast => aItems s <> []
  | LComparator c => isOrder c
  | LClear => aFront s = false
  | _ => True
  end.
Fixpoint careful (m : nat) (s : aseq) (ops : list (lop A)) : Prop :=
  (length (aItems s) <= m)%nat /\ match ops with [] => True | op :: r => fits s op /\ forall s', astep s op s' -> careful m s' r end.
End ListSpec.
Arguments aseq : clear implicits.
