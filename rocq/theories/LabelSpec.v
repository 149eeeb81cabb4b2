(** Backup labels, written out. *)
From Verif Require Import Base Str HistExpireModel.
Open Scope Z_scope.

Definition digit (c : Z) : Prop := 48 <= c <= 57.
(** YYYYMMDD-HHMMSS *)
Definition isDT (s : str) : Prop := exists d t, s = d ++ 45 :: t /\ length d = 8%nat /\ length t = 6%nat /\ Forall digit d /\ Forall digit t.
Definition isFull (s : str) : Prop := exists d, isDT d /\ s = d ++ [70].
(** A differential (D) or incremental (I) backup of full backup [f]. *)
Definition isDep (f s : str) : Prop := exists d c, isDT d /\ (c = 68 \/ c = 73) /\ s = f ++ 95 :: d ++ [c].
Definition isLabel (s : str) : Prop := isFull s \/ exists f, isFull f /\ isDep f s.
(** "<label>.manifest.gz" in a directory of the history. *)
Definition inYear (h : histYear) (label : str) : Prop := In (label ++ [46;109;97;110;105;102;101;115;116;46;103;122]) (hyFiles h).
Definition inHistory (hist : list histYear) (label : str) : Prop := exists h, In h hist /\ inYear h label.
(** 2000 to 2999 *)
Definition yearName (s : str) : Prop := exists a b c, s = [50; a; b; c] /\ digit a /\ digit b /\ digit c.
(** The history as backups write it: one directory per year, which is the year of the full backup. *)
Definition historyOk (hist : list histYear) : Prop :=
  NoDup (map hyName hist) /\ forall h x, In h hist -> isLabel x -> inYear h x -> yearName (hyName h) /\ firstn 4 x = hyName h.
(** The newest year directory *)
Definition newest (hist : list histYear) (h : histYear) : Prop := In h hist /\ yearName (hyName h) /\ forall h', In h' hist -> yearName (hyName h') -> sle (hyName h') (hyName h).
(** The newest year has a manifest. *)
Definition newestUsed (hist : list histYear) : Prop :=
  forall h, newest hist h -> exists x, isLabel x /\ inYear h x.
