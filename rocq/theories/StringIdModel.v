(** Model of src/common/type/stringId.c.  Strings are lists of byte values, ids are [Z] in [0, 2^64). *)
From Verif Require Import Base.
Open Scope Z_scope.

(** stringId.c:53-71, map of the 5-bit encoding (0 = not encodable), transcribed row by row. *)
Definition z16 : list Z := [0;0;0;0;0;0;0;0;0;0;0;0;0;0;0;0].
Definition map5 : list Z :=
  z16 ++ z16 ++
  [ 0; 0; 0; 0; 0; 0; 0; 0; 0; 0; 0; 0; 0;27; 0; 0] ++
  [ 0; 0;28; 0; 0;29;30; 0; 0; 0; 0; 0; 0; 0; 0; 0] ++
  z16 ++ z16 ++
  [ 0; 1; 2; 3; 4; 5; 6; 7; 8; 9;10;11;12;13;14;15] ++
  [16;17;18;19;20;21;22;23;24;25;26; 0; 0; 0; 0; 0] ++
  z16 ++ z16 ++ z16 ++ z16 ++ z16 ++ z16 ++ z16 ++ z16.
(** stringId.c:149-167, map of the 6-bit encoding. *)
Definition map6 : list Z :=
  z16 ++ z16 ++
  [ 0; 0; 0; 0; 0; 0; 0; 0; 0; 0; 0; 0; 0;27; 0; 0] ++
  [28;29;30;31;32;33;34;35;36;37; 0; 0; 0; 0; 0; 0] ++
  [ 0;38;39;40;41;42;43;44;45;46;47;48;49;50;51;52] ++
  [53;54;55;56;57;58;59;60;61;62;63; 0; 0; 0; 0; 0] ++
  [ 0; 1; 2; 3; 4; 5; 6; 7; 8; 9;10;11;12;13;14;15] ++
  [16;17;18;19;20;21;22;23;24;25;26; 0; 0; 0; 0; 0] ++
  z16 ++ z16 ++ z16 ++ z16 ++ z16 ++ z16 ++ z16 ++ z16.

Definition code (m : list Z) (c : Z) : Z := nth (Z.to_nat c) m 0.

(** stringId.h:28-29 *)
Definition STRID5_MAX : nat := 12.
Definition STRID6_MAX : nat := 10.

(** stringId.c:89-137 and 185-225: the switch with fall through ors map[buffer[i]] << (4 + width * i) for every i. *)
Fixpoint orChars (m : list Z) (width shift : Z) (s : list Z) : Z :=
  match s with
  | [] => 0
  | c :: r => Z.lor (Z.shiftl (code m c) shift) (orChars m width (shift + width) r)
  end.

(** stringId.c:34-230 strIdBitFromZN: 0 when the string cannot be encoded with this width. *)
Definition strIdBitFrom (bit : Z) (s : list Z) : Z :=
  let m := if bit =? 0 then map5 else map6 in
  let max := if bit =? 0 then STRID5_MAX else STRID6_MAX in
  let width := if bit =? 0 then 5 else 6 in
  if (max <? length s)%nat then 0
  else if existsb (fun c => code m c =? 0) s then 0
  else Z.lor bit (orChars m width 4 s).

(** stringId.c:24-29 *)
Definition SEQ_MAX : Z := 37.
Definition SEQ_HIGH_MIN : Z := 6.

(** stringId.c:233-278 strIdFromZN.  [None] = STRING_ID_SEQ_NONE.  ASSERTs are explicit [EAssert] outcomes. *)
Definition strIdFrom (s : list Z) (sequence : option Z) : res Z :=
  if (length s =? 0)%nat then Err EAssert else
  let r5 := strIdBitFrom 0 s in
  let* result :=
    if r5 =? 0 then
      let r6 := strIdBitFrom 1 s in
      if r6 =? 0 then Err EFormat else Ok r6
    else Ok r5 in
  match sequence with
  | None => Ok result
  | Some seq =>
      if seq <? SEQ_HIGH_MIN then Ok (Z.lor result (Z.shiftl (seq + 1) 1))
      else
        let bit := Z.land result 1 in
        let max := if bit =? 1 then STRID6_MAX else STRID5_MAX in
        if (length s <? max)%nat && (seq <=? SEQ_MAX) then
          let result := (Z.shiftl (Z.shiftr result 1) 6) mod 2 ^ 64 in
          Ok (Z.lor result (Z.lor (Z.lor (Z.shiftl (seq - SEQ_HIGH_MIN) 4) 14) bit))
        else Err EAssert
  end.

(** stringId.c:308, 344: decoding maps "!abcdefghijklmnopqrstuvwxyz-256!" and "!a-z-0-9A-Z". *)
Definition unmap5 : list Z := [33] ++ map Z.of_nat (seq 97 26) ++ [45; 50; 53; 54; 33].
Definition unmap6 : list Z := [33] ++ map Z.of_nat (seq 97 26) ++ [45] ++ map Z.of_nat (seq 48 10) ++ map Z.of_nat (seq 65 26).

(** stringId.c:311-335 and 347-369: decode characters until the remaining id is 0; [n] is the number of characters left
    after which the code asserts that nothing remains. *)
Fixpoint strIdChars (unmap : list Z) (width : Z) (n : nat) (id : Z) : res (list Z) :=
  match n with
  | O => Err EAssert
  | S n' =>
      let c := nth (Z.to_nat (Z.land id (2 ^ width - 1))) unmap 0 in
      let id' := Z.shiftr id width in
      if id' =? 0 then Ok [c] else let* r := strIdChars unmap width n' id' in Ok (c :: r)
  end.

(** stringId.c:282-372 strIdToZN. *)
Definition strIdTo (id : Z) : res (list Z) :=
  if id =? 0 then Err EAssert else
  let bit := Z.land id 1 in
  let chars := if Z.land id 14 =? 14 then Z.shiftr id 9 else Z.shiftr id 4 in
  if bit =? 0 then strIdChars unmap5 5 STRID5_MAX chars else strIdChars unmap6 6 STRID6_MAX chars.

(** stringId.c:390-406 strIdSeq. *)
Definition strIdSeq (id : Z) : res Z :=
  let sequence := Z.land id 14 in
  if negb (sequence =? 14) then
    if sequence =? 0 then Err EAssert else Ok (Z.shiftr sequence 1 - 1)
  else Ok (Z.shiftr (Z.land id 496) 4 + SEQ_HIGH_MIN).
