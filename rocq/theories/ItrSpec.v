(** What iterating over storage gives: the entries of a tree. *)
From Verif Require Import Base Str RegModel ItrModel.
Open Scope Z_scope.

(** A tree of entries; a path that is gone when it is read has no list *)
Inductive node := NFile (i : info) | NPath (i : info) (ch : option (list node)).
Definition infoOf (n : node) : info := match n with NFile i => i | NPath i _ => i end.
Definition nameOf (n : node) : str := iName (infoOf n).

(** The driver lists this tree below [sub]. *)
Fixpoint holds (ls : option str -> option (list info)) (sub : option str) (n : node) : Prop :=
  match n with
  | NFile i => iPath i = false
  | NPath i ch =>
    let p := Some (fullName sub (iName i)) in
    iPath i = true /\ ls p = option_map (map infoOf) ch /\
    match ch with None => True | Some l => (fix all (l : list node) : Prop := match l with [] => True | x :: r => holds ls p x /\ all r end) l end
  end.
Definition holdsAll (ls : option str -> option (list info)) (sub : option str) (l : list node) : Prop :=
  ls sub = Some (map infoOf l) /\ forall n, In n l -> holds ls sub n.

(** Entry [x], with its name from the top, is in the tree; [deep] if what is in paths counts. *)
Inductive inTree (deep : bool) : option str -> list node -> info -> Prop :=
| InHere sub l n : In n l -> inTree deep sub l (mkInfo (fullName sub (nameOf n)) (iPath (infoOf n)) (iData (infoOf n)))
| InSub sub l i ch x : deep = true -> In (NPath i (Some ch)) l -> inTree deep (Some (fullName sub (iName i))) ch x -> inTree deep sub l x.

(** Names in one path differ and have no slash in them *)
Fixpoint proper (n : node) : Prop :=
  (forall c, In c (nameOf n) -> c <> 47) /\
  match n with
  | NPath _ (Some l) => NoDup (map nameOf l) /\ (fix all (l : list node) : Prop := match l with [] => True | x :: r => proper x /\ all r end) l
  | _ => True
  end.
Definition properAll (l : list node) : Prop := NoDup (map nameOf l) /\ forall n, In n l -> proper n.

(** Order of names part by part: a path is before what is in it *)
Inductive before : list str -> list str -> Prop :=
| BeforeIn b r : before [] (b :: r)
| BeforeLess a b r s : strCmp a b = Lt -> before (a :: r) (b :: s)
| BeforeSame a r s : before r s -> before (a :: r) (a :: s).

(** All entries of a tree, each path directly followed by what is in it *)
Fixpoint entriesOf (deep : bool) (sub : option str) (n : node) : list info :=
  mkInfo (fullName sub (nameOf n)) (iPath (infoOf n)) (iData (infoOf n)) ::
  match n with
  | NPath i (Some l) => if deep then flat_map (entriesOf deep (Some (fullName sub (iName i)))) l else []
  | _ => []
  end.
Definition entries (deep : bool) (l : list node) : list info := flat_map (entriesOf deep None) l.

(** A run of the loop over an iterator gives [out] whatever the bounds, if they are high enough. *)
Definition gives (ls : option str -> option (list info)) (recurse : bool) (order : sortOrder) (regExp : option re) (out : list info) : Prop :=
  exists t, storageItrNew ls order true false = Ok (Some t) /\
  exists b, forall n fuel, (b <= n)%nat -> (b <= fuel)%nat -> drain ls recurse order regExp n fuel t = Some (Ok out).
