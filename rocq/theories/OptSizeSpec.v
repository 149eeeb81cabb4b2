(** Sizes and times as text *)
From Coq Require Import String.
From Verif Require Import Base Str RegNameModel NumSpec.
Open Scope Z_scope.
Open Scope list_scope.

(** The same letters, upper or lower case *)
Definition sameLetter (a b : Z) : Prop := a = b \/ (65 <= a <= 90 /\ b = a + 32).
Definition sameLetters (s t : str) : Prop := Forall2 sameLetter s t.

(** The bytes of one unit, with the unit in lower case.  "bb" is in the program, not in its documentation. *)
Definition sizeUnit (u : str) (m : Z) : Prop :=
  (u = [] /\ m = 1) \/ (u = txt "b" /\ m = 1) \/ (u = txt "bb" /\ m = 1) \/
  (exists c e, In (c, e) [(107, 1); (109, 2); (103, 3); (116, 4); (112, 5)] /\ m = 1024 ^ e /\ (u = [c] \/ u = [c; 98] \/ u = [c; 105; 98])).
(** The milliseconds of one unit, with the unit in lower case *)
Definition timeUnit (u : str) (m : Z) : Prop :=
  In (u, m) [([], 1000); (txt "ms", 1); (txt "s", 1000); (txt "m", 60 * 1000); (txt "h", 60 * 60 * 1000); (txt "d", 24 * 60 * 60 * 1000); (txt "w", 7 * 24 * 60 * 60 * 1000)].

(** A size: digits and a unit *)
Definition sizeText (s : str) (v : Z) : Prop := exists ds u us n m, s = ds ++ us /\ digitsIs 10 ds n /\ sameLetters us u /\ sizeUnit u m /\ v = n * m.
(** A time: a number with or without sign and a unit; [num] is the number as text *)
Definition timeText (s num : str) (n m : Z) : Prop := exists u us, s = num ++ us /\ signedText 10 num n /\ sameLetters us u /\ timeUnit u m.
