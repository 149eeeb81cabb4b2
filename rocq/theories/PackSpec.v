(** Vocabulary of the pack properties: which fields a sequence of writes puts in a pack, and what reading calls return for given fields. *)
From Verif Require Import Base PackModel.
Open Scope Z_scope.

(** A pack is a list of fields with increasing ids; containers hold fields of their own. *)
Inductive val := VS (s : scalar) | VC (t : Z) (fs : list (Z * val)).

Definition scalarOk (s : scalar) : Prop :=
  match s with
  | SBool _ => True
  | SI32 v => - 2 ^ 31 <= v < 2 ^ 31
  | SI64 v | STime v => - 2 ^ 63 <= v < 2 ^ 63
  | SU32 v | SMode v => 0 <= v < 2 ^ 32
  | SU64 v | SStrId v => 0 <= v < 2 ^ 64
  | SStr l | SBin l | SPack l => Z.of_nat (length l) < 2 ^ 64
  end.
Definition kindOf (s : scalar) : kind :=
  match s with SBool _ => KBool | SI32 _ => KI32 | SI64 _ => KI64 | SU32 _ => KU32 | SU64 _ => KU64 | SStrId _ => KStrId | STime _ => KTime | SMode _ => KMode
  | SStr _ => KStr | SBin _ => KBin | SPack _ => KPack end.

(** Largest id of a field, below the ids the reader uses for itself. *)
Definition idMax : Z := 2 ^ 32 - 3.

(** [writes l n ops fs]: when the last id written is [l] and [n] nulls came after it, the calls [ops] write the fields [fs].  No id means the
    next one, counting nulls. *)
Inductive writes : Z -> Z -> list wop -> list (Z * val) -> Prop :=
| w_nil l n : writes l n [] []
| w_null l n ops fs : writes l (n + 1) ops fs -> writes l n (WNull :: ops) fs
| w_default l n id d ops fs : writes l (n + 1) ops fs -> writes l n (WScalar id false d d :: ops) fs
| w_value l n id i dw d s ops fs : (dw = true \/ d <> Some s) -> i = (if id =? 0 then l + n + 1 else id) -> l < i <= idMax -> scalarOk s ->
    writes i 0 ops fs -> writes l n (WScalar id dw d (Some s) :: ops) ((i, VS s) :: fs)
| w_cont l n t id i sub subfs ops fs : t = 1 \/ t = 5 -> i = (if id =? 0 then l + n + 1 else id) -> l < i <= idMax ->
    writes 0 0 sub subfs -> writes i 0 ops fs -> writes l n (WCont t id sub :: ops) ((i, VC t subfs) :: fs).

(** No container between ids [a] and [b]. *)
Definition noCont (fs : list (Z * val)) (a b : Z) : Prop := forall j t sub, In (j, VC t sub) fs -> a < j < b -> False.

(** [m] is the last id before [i] (fields before an id that was looked for are gone, even when it is only tested for null). *)
Definition lastBefore (fs : list (Z * val)) (l i m : Z) : Prop :=
  l <= m < i /\ (m = l \/ exists w, In (m, w) fs) /\ forall j w, In (j, w) fs -> m < j < i -> False.

(** [reads fs l ops outs l']: when [l] is the last id asked for, calls [ops] return [outs] looking every id up in [fs], and [l'] is then the
    last id asked for.  Containers have to be read: none may be skipped. *)
Inductive reads : list (Z * val) -> Z -> list rop -> list out -> Z -> Prop :=
| r_nil fs l : reads fs l [] [] l
| r_value fs l k id i d s ops outs l' : i = (if id =? 0 then l + 1 else id) -> l < i <= idMax -> noCont fs l i ->
    In (i, VS s) fs -> k = kindOf s -> reads fs i ops outs l' -> reads fs l (RScalar k id d :: ops) (OScalar (Some s) :: outs) l'
| r_default fs l k id i d ops outs l' : i = (if id =? 0 then l + 1 else id) -> l < i <= idMax -> noCont fs l i ->
    (forall v, ~ In (i, v) fs) -> reads fs i ops outs l' -> reads fs l (RScalar k id d :: ops) (OScalar d :: outs) l'
| r_null fs l id i ops outs l' : i = (if id =? 0 then l + 1 else id) -> l < i <= idMax -> noCont fs l i ->
    (forall v, ~ In (i, v) fs) -> reads fs i ops outs l' -> reads fs l (RNull id :: ops) (ONull true :: outs) l'
| r_not_null fs l id i m v ops outs l' : i = (if id =? 0 then l + 1 else id) -> l < i <= idMax -> noCont fs l i ->
    In (i, v) fs -> lastBefore fs l i m -> reads fs m ops outs l' -> reads fs l (RNull id :: ops) (ONull false :: outs) l'
| r_cont fs l t id i sub sops souts ls ops outs l' : i = (if id =? 0 then l + 1 else id) -> l < i <= idMax -> noCont fs l i ->
    In (i, VC t sub) fs -> reads sub 0 sops souts ls -> noCont sub ls (idMax + 1) -> reads fs i ops outs l' ->
    reads fs l (RCont t id sops :: ops) (OCont souts :: outs) l'.

(** Reading the same fields in the same order as they are written, with the same ids and defaults: the calls and what they should return. *)
Definition mirrorKind (d v : option scalar) : kind := match v with Some s => kindOf s | None => match d with Some s => kindOf s | None => KStr end end.
Fixpoint mirror (o : wop) : rop :=
  match o with
  | WNull => RNull 0
  | WScalar id _ d v => RScalar (mirrorKind d v) id d
  | WCont t id ops => RCont t id (map mirror ops)
  end.
Fixpoint expect (o : wop) : out :=
  match o with
  | WNull => ONull true
  | WScalar _ _ _ v => OScalar v
  | WCont _ _ ops => OCont (map expect ops)
  end.
(** [aligned p x ops]: ids increase, and no call without id follows a null written with an id further on ([x] is false after such a null,
    until an id is given again).  [p] is the position: last id, written or null. *)
Inductive aligned : Z -> bool -> list wop -> Prop :=
| a_nil p x : aligned p x []
| a_null p x ops : p + 1 <= idMax -> aligned (p + 1) x ops -> aligned p x (WNull :: ops)
| a_default p x id i d ops : i = (if id =? 0 then p + 1 else id) -> p < i <= idMax -> aligned i (x && ((i =? p + 1))) ops ->
    aligned p x (WScalar id false d d :: ops)
| a_value p x id i dw d s ops : (dw = true \/ d <> Some s) -> (id = 0 -> x = true) -> i = (if id =? 0 then p + 1 else id) -> p < i -> aligned i true ops ->
    aligned p x (WScalar id dw d (Some s) :: ops)
| a_cont p x t id i sub ops : (id = 0 -> x = true) -> i = (if id =? 0 then p + 1 else id) -> p < i -> aligned 0 true sub -> aligned i true ops ->
    aligned p x (WCont t id sub :: ops).

(** Id and type of field a call asks for, and type of a field. *)
Definition ropId (o : rop) : Z := match o with RScalar _ id _ | RNull id | RCont _ id _ => id end.
Definition ropType (o : rop) : option Z := match o with RScalar k _ _ => Some (kindType k) | RNull _ => None | RCont t _ _ => Some t end.
Definition vType (v : val) : Z := match v with VS s => kindType (kindOf s) | VC t _ => t end.
