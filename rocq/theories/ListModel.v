(** Lists.  Models src/common/type/list.c:15-475.

    The memory of a list is a row of cells; a cell without a value has not been written since it was allocated or has been vacated.  The list starts at a cell and has a
    number of items.  Pointers into the list are places.  Reading a cell without a value, moving cells out of bounds, sizes that wrap and freeing a pointer that
    was not allocated are undefined.  Asserts of the arguments are not there in production builds.  Left out: memory contexts, item size, lstToLog(), and that
    lstComparatorDesc() finds the list in a static variable, which is set before each use.  qsort() is an argument; bsearch() is the one of glibc. *)
From Verif Require Import Base Str.
Open Scope Z_scope.
Open Scope list_scope.

(** list.h:22-27 *)
Inductive lorder := ONone | OAsc | ODesc.
(** list.h:57-58 LST_COMPARATOR_CMP; list.c:94-127 lstComparatorInt and lstComparatorUInt *)
Definition cmpZ (a b : Z) : Z := (if b <? a then 1 else 0) - (if a <? b then 1 else 0).
(** list.c:79-91 lstComparatorStr, list.c:130-142 lstComparatorZ: the sign of strcmp(); strings that are NULL are left out *)
Definition cmpStr (a b : str) : Z := match strCmp a b with Lt => -1 | Eq => 0 | Gt => 1 end.

Section List.
Context {A : Type}.
Variable qs : (A -> A -> Z) -> list A -> list A.

(** list.c:18-25.  [liCells] is what listAlloc points to (listSizeMax cells; none if there is no memory), [liOff] is where pub.list points to *)
Record lst := mkLst { liCells : list (option A); liOff : nat; liSize : nat; liOrder : lorder; liCmp : A -> A -> Z }.
(** list.c:27-51 *)
Definition lstNew (o : lorder) (c : A -> A -> Z) : lst := mkLst [] 0 0 o c.

(** memmove of [n] cells *)
Definition move (c : list (option A)) (dst src n : nat) : res (list (option A)) :=
  if (src + n <=? length c)%nat && (dst + n <=? length c)%nat then Ok (firstn dst c ++ firstn n (skipn src c) ++ skipn (dst + n) c) else UB.
Definition store (c : list (option A)) (i : nat) (x : option A) : res (list (option A)) :=
  if (i <? length c)%nat then Ok (firstn i c ++ x :: skipn (S i) c) else UB.
(** VALGRIND_MAKE_MEM_UNDEFINED of [n] cells *)
Fixpoint vacate (c : list (option A)) (i n : nat) : res (list (option A)) :=
  match n with O => Ok c | S n => let* c := store c i None in vacate c (S i) n end.
Definition load (c : list (option A)) (i : nat) : res A := match nth_error c i with Some (Some x) => Ok x | _ => UB end.

(** list.c:53-76 *)
Definition lstClear (l : lst) : res lst :=
  match liCells l with
  | [] => Ok l
  | _ => if (liOff l =? 0)%nat then Ok (mkLst [] 0 0 (liOrder l) (liCmp l)) else UB
  end.
(** list.c:156-189 *)
Definition lstGet (l : lst) (i : nat) : res A := if (liSize l <=? i)%nat then Err EAssert else load (liCells l) (liOff l + i).
Definition lstGetLast (l : lst) : res A := if (liSize l =? 0)%nat then Err EAssert else load (liCells l) (liOff l + (liSize l - 1)).

(** bsearch() between [lo] and [hi] *)
Fixpoint bsearch (fuel : nat) (cmp : A -> A -> Z) (c : list (option A)) (off : nat) (x : A) (lo hi : nat) : res (option nat) :=
  match fuel with
  | O => Ok None
  | S fuel =>
      if (lo <? hi)%nat then
        let mid := Nat.div2 (lo + hi) in
        let* y := load c (off + mid) in
        if cmp x y <? 0 then bsearch fuel cmp c off x lo mid else if 0 <? cmp x y then bsearch fuel cmp c off x (S mid) hi else Ok (Some mid)
      else Ok None
  end.
(** list.c:212-219 *)
Fixpoint scan (l : lst) (x : A) (i n : nat) : res (option nat) :=
  match n with O => Ok None | S n => let* y := lstGet l i in if liCmp l x y =? 0 then Ok (Some i) else scan l x (S i) n end.
(** list.c:192-241 lstFind, lstFindIdx: the place of the item.  lstIdx() (list.c:261-281) gives it from the pointer. *)
Definition lstFind (l : lst) (x : A) : res (option nat) :=
  match liCells l with
  | [] => Ok None
  | c =>
      match liOrder l with
      | OAsc => bsearch (liSize l) (liCmp l) c (liOff l) x 0 (liSize l)
      | ODesc => bsearch (liSize l) (fun a b => liCmp l b a) c (liOff l) x 0 (liSize l)
      | ONone => scan l x 0 (liSize l)
      end
  end.
Definition lstExists (l : lst) (x : A) : res bool := let* r := lstFind l x in Ok (match r with Some _ => true | None => false end).

(** list.c:284-345; LIST_INITIAL_SIZE is 8 (list.h:32).  The sizes are of 32 bits. *)
Definition lstInsert (l : lst) (i : nat) (x : A) : res lst :=
  let max := length (liCells l) in
  let n := liSize l in
  if (n <? i)%nat then UB
  else
    let* y :=
      if (n =? max)%nat then
        if (max =? 0)%nat then Ok (repeat None 8, 0%nat)
        else if negb (liOff l =? 0)%nat || (2 ^ 32 <=? 2 * Z.of_nat max) then UB else Ok (liCells l ++ repeat None max, 0%nat)
      else if negb (liOff l =? 0)%nat && (n + liOff l =? max)%nat then
        let* c := move (liCells l) 0 (liOff l) n in
        let* c := vacate c n (liOff l) in
        Ok (c, 0%nat)
      else Ok (liCells l, liOff l) in
    let '(c, off) := y in
    let* c := if (i =? n)%nat then Ok c else move c (off + (i + 1)) (off + i) (n - i) in
    let* c := store c (off + i) (Some x) in
    Ok (mkLst c off (S n) ONone (liCmp l)).
(** list.h:125-129 *)
Definition lstAdd (l : lst) (x : A) : res lst := lstInsert l (liSize l) x.

(** list.c:348-382 *)
Definition lstRemoveIdx (l : lst) (i : nat) : res lst :=
  match liSize l with
  | O => UB
  | S n =>
      if (i =? 0)%nat then
        let* c := vacate (liCells l) (liOff l) 1 in
        Ok (mkLst c (S (liOff l)) n (liOrder l) (liCmp l))
      else if (n <? i)%nat then UB
      else
        let* c := move (liCells l) (liOff l + i) (liOff l + (i + 1)) (n - i) in
        let* c := vacate c (liOff l + n) 1 in
        Ok (mkLst c (liOff l) n (liOrder l) (liCmp l))
  end.
(** list.c:384-404 *)
Definition lstRemove (l : lst) (x : A) : res (bool * lst) :=
  let* r := lstFind l x in
  match r with Some i => let* l := lstRemoveIdx l i in Ok (true, l) | None => Ok (false, l) end.
(** list.c:406-419 *)
Definition lstRemoveLast (l : lst) : res lst := if (liSize l =? 0)%nat then Err EAssert else lstRemoveIdx l (liSize l - 1).

(** list.c:422-458 *)
Fixpoint values (c : list (option A)) : res (list A) :=
  match c with [] => Ok [] | Some x :: r => let* l := values r in Ok (x :: l) | None :: _ => UB end.
Definition lstSort (l : lst) (o : lorder) : res lst :=
  let sorted cmp :=
    let* xs := values (firstn (liSize l) (skipn (liOff l) (liCells l))) in
    Ok (mkLst (firstn (liOff l) (liCells l) ++ map Some (qs cmp xs) ++ skipn (liOff l + liSize l) (liCells l)) (liOff l) (liSize l) o (liCmp l)) in
  match liCells l, o with
  | [], _ | _, ONone => Ok (mkLst (liCells l) (liOff l) (liSize l) o (liCmp l))
  | _, OAsc => sorted (liCmp l)
  | _, ODesc => sorted (fun a b => liCmp l b a)
  end.
(** list.c:461-475 *)
Definition lstComparatorSet (l : lst) (c : A -> A -> Z) : lst := mkLst (liCells l) (liOff l) (liSize l) ONone c.

(** * Sequences of calls *)
Inductive lop := LInsert (i : nat) (x : A) | LAdd (x : A) | LRemoveIdx (i : nat) | LRemove (x : A) | LRemoveLast | LSort (o : lorder) | LComparator (c : A -> A -> Z) | LClear.
Definition lstDo (l : lst) (op : lop) : res lst :=
  match op with
  | LInsert i x => lstInsert l i x
  | LAdd x => lstAdd l x
  | LRemoveIdx i => lstRemoveIdx l i
  | LRemove x => let* r := lstRemove l x in Ok (snd r)
  | LRemoveLast => lstRemoveLast l
  | LSort o => lstSort l o
  | LComparator c => Ok (lstComparatorSet l c)
  | LClear => lstClear l
  end.
Fixpoint lstRun (l : lst) (ops : list lop) : res lst := match ops with [] => Ok l | op :: r => let* l := lstDo l op in lstRun l r end.
End List.
Arguments lst : clear implicits.
Arguments lop : clear implicits.
