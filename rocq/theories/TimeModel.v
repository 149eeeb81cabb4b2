(** Dates and times.  Models src/common/time.c:48-184 and src/common/type/convert.c:579-681.

    C int arithmetic is checked: a result outside 32 bits is [UB] (signed overflow).  mktime() is external: a text without time zone
    gives [TLocal] with the parts handed to mktime(). *)
From Verif Require Import Base Str ConvertModel ExpireModel.
Open Scope Z_scope.

Definition int32 (v : Z) : res Z := if (v <? - two31) || (two31 - 1 <? v) then UB else Ok v.

(** time.c:147-155 yearIsLeap (% of a positive number) *)
Definition yearIsLeap (year : Z) : bool := ((year mod 4 =? 0) && negb (year mod 100 =? 0)) || (year mod 400 =? 0).
(** time.c:60-64 *)
Definition daysPerMonth (leap : bool) : list Z :=
  if leap then [31;29;31;30;31;30;31;31;30;31;30;31] else [31;28;31;30;31;30;31;31;30;31;30;31].
(** time.c:170-174 *)
Definition cumulativeDaysPerMonth (leap : bool) : list Z :=
  if leap then [0;31;60;91;121;152;182;213;244;274;305;335] else [0;31;59;90;120;151;181;212;243;273;304;334].
(** time.c:50-70 datePartsValid; && is lazy so the table is only read for a valid month. *)
Definition datePartsValid (year month day : Z) : bool :=
  (1970 <=? year) && (0 <? month) && (month <=? 12) && (0 <? day) &&
  (day <=? nth (Z.to_nat (month - 1)) (daysPerMonth (yearIsLeap year)) 0).
(** time.c:73-87 timePartsValid *)
Definition timePartsValid (hour minute second : Z) : bool :=
  (0 <=? hour) && (hour <? 24) && (0 <=? minute) && (minute <? 60) && (0 <=? second) && (second <? 60).
(** time.c:90-110 tzPartsValid; the minute is never negative here. *)
Definition tzPartsValid (tzHour tzMinute : Z) : bool :=
  ((-12 <? tzHour) && (tzHour <? 14) && (tzMinute mod 15 =? 0)) || ((tzHour =? -12) && (tzMinute =? 0)) || ((tzHour =? 14) && (tzMinute =? 0)).
(** time.c:113-135 tzOffsetSeconds *)
Definition tzOffsetSeconds (tzHour tzMinute : Z) : res Z :=
  if tzPartsValid tzHour tzMinute then
    Ok (if tzHour <? 0 then -1 * (- tzHour * 3600 + tzMinute * 60) else tzHour * 3600 + tzMinute * 60)
  else Err EFormat.
(** time.c:158-179 dayOfYear *)
Definition dayOfYear (year month day : Z) : res Z :=
  if datePartsValid year month day then Ok (nth (Z.to_nat (month - 1)) (cumulativeDaysPerMonth (yearIsLeap year)) 0 + day) else Err EFormat.
(** time.c:182-205 epochFromParts, every int operation that can leave 32 bits checked, in the order of the expression.  / truncates
    (Z.quot). *)
Definition epochFromParts (year month day hour minute second tz : Z) : res Z :=
  if timePartsValid hour minute second then
    let* doy := dayOfYear year month day in
    let* a := int32 (-1 * tz) in
    let* b := int32 (a + second) in
    let* c := int32 (b + minute * 60) in
    let* d := int32 (c + hour * 3600) in
    let* e := int32 (d + (doy - 1) * 86400) in
    let* y := int32 ((year - 1900 - 70) * 31536000) in
    let* f := int32 (e + y) in
    let* l1 := int32 (Z.quot (year - 1900 - 69) 4 * 86400) in
    let* g := int32 (f + l1) in
    let* l2 := int32 (Z.quot (year - 1900 - 1) 100 * 86400) in
    let* h := int32 (g - l2) in
    let* l3 := int32 (Z.quot (year - 1900 + 299) 400 * 86400) in
    int32 (h + l3)
  else Err EFormat.

(** convert.c:581-598 cvtZNToTimePart *)
Fixpoint timePart (digits : str) : option Z :=
  match digits with
  | [] => Some 0
  | c :: r => if isDigit c then match timePart r with Some v => Some ((c - 48) * 10 ^ Z.of_nat (length r) + v) | None => None end else None
  end.
Definition zToTimePart (s : str) (offset size : nat) : res Z :=
  match timePart (firstn size (skipn offset s)) with Some v => Ok v | None => Err EFormat end.

Inductive timeResult :=
| TEpoch (epoch : Z)
| TLocal (year month day hour minute second : Z).   (* mktime() of these parts *)

Definition charAt (s : str) (i : nat) : Z := nth i s 0.
Fixpoint skipDigits (s : str) : str := match s with c :: r => if isDigit c then skipDigits r else s | [] => [] end.

(** convert.c:600-681 cvtZToTime *)
Definition cvtZToTime (s : str) : res timeResult :=
  if (length s <? 19)%nat || negb (charAt s 4 =? 45) || negb (charAt s 7 =? 45) || negb (charAt s 10 =? 32) || negb (charAt s 13 =? 58)
     || negb (charAt s 16 =? 58)
  then Err EFormat
  else
    let* year := zToTimePart s 0 4 in
    let* month := zToTimePart s 5 2 in
    let* day := zToTimePart s 8 2 in
    let* hour := zToTimePart s 11 2 in
    let* minute := zToTimePart s 14 2 in
    let* second := zToTimePart s 17 2 in
    if negb (datePartsValid year month day) then Err EFormat
    else if negb (timePartsValid hour minute second) then Err EFormat
    else
      let part := skipn 19 s in
      let part1 := if ((charAt part 0 =? 46) || (charAt part 0 =? 44)) && (2 <=? length part)%nat then skipDigits (skipn 1 part) else part in
      if ((charAt part1 0 =? 43) || (charAt part1 0 =? 45)) && (3 <=? length part1)%nat then
        let* h := zToTimePart part1 1 2 in
        let offsetHour := h * (if charAt part1 0 =? 45 then -1 else 1) in
        let part2 := skipn 3 part1 in
        let part3 := if charAt part2 0 =? 58 then skipn 1 part2 else part2 in
        let* (offsetMinute, part4) :=
          (if Nat.eqb (length part3) 2 then let* m := zToTimePart part3 0 2 in Ok (m, []) else Ok (0, part3)) in
        if negb (Nat.eqb (length part4) 0) then Err EFormat
        else
          let* tz := tzOffsetSeconds offsetHour offsetMinute in
          let* epoch := epochFromParts year month day hour minute second tz in
          Ok (TEpoch epoch)
      else if negb (Nat.eqb (length part1) 0) then Err EFormat
      else Ok (TLocal year month day hour minute second).
