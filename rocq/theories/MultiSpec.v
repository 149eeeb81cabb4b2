(** What reading ranges of several files gives. *)
From Verif Require Import Base Str MultiModel.
Open Scope Z_scope.

(** The bytes of a file in a range: the byte at position [i] of the file is in it if the range has it. *)
Fixpoint bytesIn (data : list Z) (at_ off : Z) (stop : option Z) : list Z :=
  match data with
  | [] => []
  | b :: t => (if (off <=? at_) && match stop with None => true | Some e => at_ <? e end then [b] else []) ++ bytesIn t (at_ + 1) off stop
  end.
(** The bytes meant by a request; of a file that is missing none. *)
Definition meant (content : str -> option str -> option (list Z)) (a : add) : list Z :=
  match content (aFile a) (aVer a) with
  | None => []
  | Some data => bytesIn data 0 (aOff a) (match aLim a with None => None | Some l => Some (aOff a + l) end)
  end.
(** Offsets and limits are in the range of the type, the end too. *)
Definition fits (a : add) : Prop := 0 <= aOff a < 2 ^ 64 /\ match aLim a with None => True | Some l => 0 <= l /\ aOff a + l < 2 ^ 64 - 1 end.
(** Requests next to each other for one file are for one version. *)
Fixpoint oneVersion (l : list add) : Prop :=
  match l with a :: ((b :: _) as t) => (aFile a = aFile b -> aVer a = aVer b) /\ oneVersion t | _ => True end.
(** Requests next to each other for one file have limits and are in order. *)
Fixpoint inOrder (l : list add) : Prop :=
  match l with
  | a :: ((b :: _) as t) => (aFile a = aFile b -> exists x y, aLim a = Some x /\ aLim b = Some y /\ aOff a + x <= aOff b) /\ inOrder t
  | _ => True
  end.
