(** Numbers as text, mathematically. *)
From Verif Require Import Base Str.
Open Scope Z_scope.

(** Value of a digit character. *)
Inductive digitIs : Z -> Z -> Prop :=
| dec d : 0 <= d < 10 -> digitIs (48 + d) d
| hexl d : 10 <= d < 36 -> digitIs (87 + d) d
| hexu d : 10 <= d < 36 -> digitIs (55 + d) d.
(** [textIs base s v]: [s] is a non-empty list of digits of [base] with value [v]. *)
Inductive digitsIs (base : Z) : str -> Z -> Prop :=
| ds_one c d : digitIs c d -> d < base -> digitsIs base [c] d
| ds_snoc s v c d : digitsIs base s v -> digitIs c d -> d < base -> digitsIs base (s ++ [c]) (v * base + d).
Definition hexPrefix (base : Z) (p : str) : Prop := p = [] \/ (base = 16 /\ (p = [48;120] \/ p = [48;88])).
(** Unsigned number: optional plus sign, optional 0x in base 16, digits. *)
Definition unsignedText (base : Z) (s : str) (v : Z) : Prop :=
  exists sg p ds, (sg = [] \/ sg = [43]) /\ hexPrefix base p /\ s = sg ++ p ++ ds /\ digitsIs base ds v.
Definition signedText (base : Z) (s : str) (v : Z) : Prop :=
  unsignedText base s v \/ exists p ds w, hexPrefix base p /\ s = 45 :: p ++ ds /\ digitsIs base ds w /\ v = - w.
