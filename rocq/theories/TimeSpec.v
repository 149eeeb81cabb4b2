(** The Gregorian calendar, by counting days one at a time from 1970-01-01, and the accepted date/time texts. *)
From Verif Require Import Base Str NumSpec TimeModel.
Open Scope Z_scope.

Definition leapYear (y : Z) : Prop := (4 | y) /\ (~ (100 | y) \/ (400 | y)).
Inductive monthLength (y : Z) : Z -> Z -> Prop :=
| ml31 m : In m [1;3;5;7;8;10;12] -> monthLength y m 31
| ml30 m : In m [4;6;9;11] -> monthLength y m 30
| ml29 : leapYear y -> monthLength y 2 29
| ml28 : ~ leapYear y -> monthLength y 2 28.
Definition validDate (y m d : Z) : Prop := 1970 <= y /\ exists n, monthLength y m n /\ 1 <= d <= n.
Definition validTime (h mi s : Z) : Prop := 0 <= h < 24 /\ 0 <= mi < 60 /\ 0 <= s < 60.

(** [dayNumber y m d n]: y-m-d is [n] days after 1970-01-01. *)
Inductive dayNumber : Z -> Z -> Z -> Z -> Prop :=
| dn_first : dayNumber 1970 1 1 0
| dn_day y m d n len : dayNumber y m d n -> monthLength y m len -> d < len -> dayNumber y m (d + 1) (n + 1)
| dn_month y m n len : dayNumber y m len n -> monthLength y m len -> m < 12 -> dayNumber y (m + 1) 1 (n + 1)
| dn_year y n : dayNumber y 12 31 n -> dayNumber (y + 1) 1 1 (n + 1).

(** Text. *)
Definition digits (n : nat) (s : str) (v : Z) : Prop := length s = n /\ digitsIs 10 s v.
Definition dateTimeText (s : str) (y m d h mi se : Z) : Prop :=
  exists sy sm sd sh smi sse, s = sy ++ [45] ++ sm ++ [45] ++ sd ++ [32] ++ sh ++ [58] ++ smi ++ [58] ++ sse /\
    digits 4 sy y /\ digits 2 sm m /\ digits 2 sd d /\ digits 2 sh h /\ digits 2 smi mi /\ digits 2 sse se.
(** Fraction of a second: dropped.  [rest] is what follows. *)
Definition fractionText (s rest : str) : Prop :=
  s = [] \/ exists c ds, (c = 46 \/ c = 44) /\ s = c :: ds /\ Forall (fun x => 48 <= x <= 57) ds /\ ds ++ rest <> [].
(** Time zone offset in hours and minutes with its sign. *)
Definition zoneText (s : str) (sign hh mm : Z) : Prop :=
  exists c sh sep smm, (c = 43 /\ sign = 1 \/ c = 45 /\ sign = -1) /\ s = c :: sh ++ sep ++ smm /\ digits 2 sh hh /\ (sep = [] \/ sep = [58]) /\
    (digits 2 smm mm \/ smm = [] /\ mm = 0).
(** The offsets the code takes for valid. *)
Definition zoneOk (sign hh mm : Z) : Prop :=
  (-12 < sign * hh < 14 /\ (15 | mm)) \/ (sign * hh = -12 /\ mm = 0) \/ (sign * hh = 14 /\ mm = 0).
(** Offset in seconds: the sign applies to hours and minutes. *)
Definition zoneSeconds (sign hh mm : Z) : Z := sign * (hh * 3600 + mm * 60).
