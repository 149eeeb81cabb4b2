(** What the name of an option is *)
From Coq Require Import Sorting.Sorted.
From Verif Require Import Base Str ConvertModel OptNameModel.
Open Scope Z_scope.
Open Scope list_scope.

(** The number that digits stand for *)
Definition decimal (ds : str) : Z := fold_left (fun n c => 10 * n + (c - 48)) ds 0.
Definition digitsOnly (ds : str) : Prop := forall c, In c ds -> 48 <= c <= 57.
(** There is something before the first dash, and it does not end with a digit *)
Definition stem (b : str) : Prop := b <> [] /\ ~ In 45 b /\ forall x c, b = x ++ [c] -> ~ 48 <= c <= 57.
(** [written] is the name with the key after its stem *)
Definition withKey (name digits written : str) : Prop := exists b e, name = b ++ 45 :: e /\ written = b ++ digits ++ 45 :: e /\ stem b.
(** A name with no key in it: no dash, or a stem before the first dash *)
Definition plain (name : str) : Prop := ~ In 45 name \/ exists b e, name = b ++ 45 :: e /\ stem b.

Definition prefixOf (neg rst : bool) : str := if neg then prefixNegate else if rst then prefixReset else [].
Definition grouped (r : rule) : Prop := rGroup r <> None.

Definition wfName (name : str) : Prop :=
  plain name /\ (forall e, name <> prefixNegate ++ e) /\ (forall e, name <> prefixReset ++ e).
Record wfTables (rules : list rule) (deps : list deprecate) (groups : list str) : Prop := {
  wfSorted : StronglySorted slt (map rName rules);
  wfSortedDep : StronglySorted slt (map dName deps);
  wfNames : forall r, In r rules -> wfName (rName r);
  wfNamesDep : forall d, In d deps -> wfName (dName d);
  wfGroups : forall r g, In r rules -> rGroup r = Some g -> exists gn e, nth_error groups g = Some gn /\ rName r = gn ++ 45 :: e /\ stem gn;
  wfIds : forall d, In d deps -> exists r, nth_error rules (dId d) = Some r /\ (dIndexed d = true -> grouped r)
}.

(** The name belongs to the option, now or before *)
Definition namesOption (rules : list rule) (deps : list deprecate) (name : str) (i : nat) : Prop :=
  (exists r, nth_error rules i = Some r /\ rName r = name) \/ (exists d, In d deps /\ dName d = name /\ dId d = i).
(** The option that a name stands for when prefixes are accepted: the option with this name, or the only option (or deprecated name) that begins with it *)
Definition candidateName (rules : list rule) (deps : list deprecate) (pm : bool) (name : str) (i : nat) : Prop :=
  namesOption rules deps name i \/
  pm = true /\ ~ (exists r, In r rules /\ rName r = name) /\
  ((exists r, nth_error rules i = Some r /\ strBeginsWith (rName r) name = true /\ forall j r', nth_error rules j = Some r' -> strBeginsWith (rName r') name = true -> j = i) \/
   (exists j d, nth_error deps j = Some d /\ dId d = i /\ strBeginsWith (dName d) name = true /\ forall j' d', nth_error deps j' = Some d' -> strBeginsWith (dName d') name = true -> j' = j)).
