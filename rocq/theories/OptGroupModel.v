(** Groups of options (pg, repo): which keys are used, the map from index to key, removing indexes that have only defaults, and the default index.  Models the phases 4 and 6 of cfgParse()
    (src/config/parse.c:2266-2383, 2834-2893) and the default index (src/config/parse.c:2898-2937).

    The values of the options at each index (phase 5) are of any type here. *)
From Verif Require Import Base Str OptNameModel OptLoadModel.
Open Scope Z_scope.
Open Scope list_scope.

Definition inGroup (r : rule) (g : nat) : bool := match rGroup r with Some g' => (g' =? g)%nat | None => false end.

Section Group.
Variable rules : list rule.
Variable valid : nat -> bool.

(** parse.c:2286-2296: an option that was given and is not valid for the command is an error *)
Definition checkValid (t : table) : res unit := if forallb (fun e => valid (fst (fst e))) t then Ok tt else Err EOther.

(** parse.c:2302-2322: groupIdxMap, which keys of the group have a value that is not reset in an option that is valid *)
Fixpoint usedIn (l : list rule) (i : nat) (t : table) (g : nat) (k : Z) : bool :=
  match l with
  | [] => false
  | r :: l => (valid i && inGroup r g && match getOpt t i k with Some v => negb (pvReset v) | None => false end) || usedIn l (S i) t g k
  end.
Definition used (t : table) (g : nat) (k : Z) : bool := usedIn rules 0 t g k.
(** optionGroup[].valid: the group has an option that is valid *)
Fixpoint groupValidIn (l : list rule) (i : nat) (g : nat) : bool := match l with [] => false | r :: l => (valid i && inGroup r g) || groupValidIn l (S i) g end.
Definition groupValid (g : nat) : bool := groupValidIn rules 0 g.

(** The keys from [k] on, [n] of them, that are used, in order *)
Fixpoint usedKeys (f : Z -> bool) (n : nat) (k : Z) : list Z := match n with O => [] | S n => (if f k then [k] else []) ++ usedKeys f n (k + 1) end.

(** Writing keys to memory of [size] cells one after the other *)
Fixpoint writeKeys (size : nat) (keys map : list Z) : res (list Z) :=
  match keys with [] => Ok map | k :: r => if (length map <? size)%nat then writeKeys size r (map ++ [k]) else UB end.

(** parse.c:2326-2383: the map of one group.  [pg] is that the group is pg. *)
Definition indexMap (pg : bool) (f : Z -> bool) : res (list Z) :=
  let total := length (usedKeys f 256 0) in
  let size := if pg && (0 <? total)%nat && negb (f 0) then S total else total in
  if (size =? 0)%nat then writeKeys 1 [0] []
  else if pg then let* m := writeKeys size [0] [] in writeKeys size (usedKeys f 255 1) m
  else writeKeys size (usedKeys f 256 0) [].
End Group.

(** parse.c:2834-2893 phase 6.  memmove() of the rest over the place removed *)
Definition removeAt {A} (n : nat) (l : list A) : list A := firstn n l ++ skipn (S n) l.
(** The loop from the last index down; [total] is indexTotal, the lists have at least so many cells *)
Fixpoint compact {A} (keep : nat -> bool) (n : nat) (total : nat) (map : list Z) (arrays : list (list A)) : nat * list Z * list (list A) :=
  match n with
  | O => (total, map, arrays)
  | S n =>
      if (total =? 1)%nat then (total, map, arrays)
      else if keep n then compact keep n total map arrays
      else
        let last := (n <? total - 1)%nat in
        compact keep n (total - 1) (if last then removeAt n map else map) (if last then List.map (removeAt n) arrays else arrays)
  end.
(** parse.c:2887-2892: if one index is left, which has all defaults, it is key 1 *)
Definition finalMap (keep : nat -> bool) (total : nat) (map : list Z) : list Z :=
  match map with
  | k :: r => if (total =? 1)%nat && negb (keep 0%nat) && negb (k =? 0) then 0 :: r else map
  | [] => []
  end.
Definition reduce {A} (keep : nat -> bool) (map : list Z) (arrays : list (list A)) : nat * list Z * list (list A) :=
  let '(total, m, a) := compact keep (length map) (length map) map arrays in (total, finalMap keep total m, a).

(** parse.c:2913-2931: the index of the key that an option asks for *)
Fixpoint findKey (n : nat) (total : nat) (map : list Z) (k : Z) : option nat :=
  match total, map with
  | S total, k' :: r => if k' =? k then Some n else findKey (S n) total r k
  | _, _ => None
  end.
Definition defaultIndex (total : nat) (map : list Z) (asked : option Z) : res nat :=
  match asked with
  | None => Ok 0%nat
  | Some key => match findKey 0 total map (key - 1) with Some i => Ok i | None => Err EOptionInvalidValue end
  end.
