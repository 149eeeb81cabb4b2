(** Where a path leads. *)
From Verif Require Import Base Str.
Open Scope Z_scope.

(** The names between slashes. *)
Fixpoint split (s : str) : list str :=
  match s with [] => [[]] | c :: t => if c =? 47 then [] :: split t else match split t with h :: r => (c :: h) :: r | [] => [[c]] end end.
Definition parts (s : str) : list str := filter (fun x => match x with [] => false | _ => true end) (split s).
(** Walking the names from the root. *)
Definition step (at_ : list str) (name : str) : list str :=
  if strEqb name [46] then at_ else if strEqb name [46; 46] then removelast at_ else at_ ++ [name].
Definition walk (names : list str) : list str := fold_left step names [].
Definition double (s : str) : Prop := exists a b, s = a ++ 47 :: 47 :: b.
Definition absolute (s : str) : Prop := exists t, s = 47 :: t.
