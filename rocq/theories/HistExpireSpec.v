(** Vocabulary for history expiration (C23). *)
From Verif Require Import Base Str ExpireModel HistExpireModel.
Open Scope Z_scope.

(** Manifest of [lab] is in the history: in the directory of its year. *)
Definition histFile (lab : str) : str := lab ++ [46;109;97;110;105;102;101;115;116;46;103;122].
Definition inHistory (h : list histYear) (year file : str) : Prop := exists y, In y h /\ hyName y = year /\ In file (hyFiles y).
Definition keptIn (h : list histYear) (lab : str) : Prop := inHistory h (firstn 4 lab) (histFile lab).
Definition aLabel (s : str) : Prop :=
  labelFull s = true \/ labelDiff s = true \/ labelIncr s = true.
