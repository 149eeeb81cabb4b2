(** Numbers as text.  Models the integer conversions of src/common/type/convert.c:20-93, 363-545, 684-821 on top of the C library
    functions strtoull(), strtoll() and printf() with %d %u %x %X %o and zero padding.

    A C string is the list of its characters before the terminating zero.  Simplifications: only bases up to 16 are used; buffer size
    checks of the cvt*ToZ() functions (ASSERT) are left out; isspace() is that of the C locale. *)
From Verif Require Import Base Str ConvertModel.
Open Scope Z_scope.

(** * printf *)

Definition digitText (upper : bool) (d : Z) : Z := if d <? 10 then 48 + d else if upper then 55 + d else 87 + d.
Fixpoint baseText (fuel : nat) (upper : bool) (base n : Z) : str :=
  match fuel with
  | O => []
  | S f => if n <? base then [digitText upper n] else baseText f upper base (n / base) ++ [digitText upper (n mod base)]
  end.
(** Up to 64 bits in a base of at least 2. *)
Definition numText (upper : bool) (base n : Z) : str := baseText 64 upper base n.
Definition padText (w : nat) (s : str) : str := repeat 48 (w - length s) ++ s.
Definition intText (n : Z) : str := if n <? 0 then 45 :: numText false 10 (- n) else numText false 10 n.

(** convert.c:363,432 / 684,755,528 / 496 *)
Definition cvtIntToZ : Z -> str := intText.
Definition cvtUIntToZ : Z -> str := numText false 10.
Definition cvtModeToZ (mode : Z) : str := padText 4 (numText false 8 mode).

(** * strtoull and strtoll *)

Definition isSpace (c : Z) : bool := (c =? 32) || ((9 <=? c) && (c <=? 13)).
Definition digitVal (base c : Z) : option Z :=
  let v := if (48 <=? c) && (c <=? 57) then c - 48
           else if (97 <=? c) && (c <=? 122) then c - 87
           else if (65 <=? c) && (c <=? 90) then c - 55 else 99 in
  if v <? base then Some v else None.
Fixpoint skipSpace (s : str) : str := match s with c :: r => if isSpace c then skipSpace r else s | [] => [] end.
(** Digits from the front: value, how many, rest. *)
Fixpoint scanDigits (base : Z) (s : str) (acc : Z) (n : nat) : Z * nat * str :=
  match s with
  | [] => (acc, n, [])
  | c :: r => match digitVal base c with Some d => scanDigits base r (acc * base + d) (S n) | None => (acc, n, s) end
  end.
Definition isHexChar (c : Z) : bool := match digitVal 16 c with Some _ => true | None => false end.
Definition skipHexPrefix (base : Z) (s : str) : str :=
  match s with
  | z :: x :: h :: r => if (base =? 16) && (z =? 48) && ((x =? 120) || (x =? 88)) && isHexChar h then h :: r else s
  | _ => s
  end.
(** Sign, magnitude and the rest of the string (endPtr); no digits: the whole string is left. *)
Definition strto (base : Z) (s : str) : bool * Z * str :=
  let s1 := skipSpace s in
  let '(neg, s2) := match s1 with 45 :: r => (true, r) | 43 :: r => (false, r) | _ => (false, s1) end in
  let '(v, n, rest) := scanDigits base (skipHexPrefix base s2) 0 0 in
  match n with O => (false, 0, s) | _ => (neg, v, rest) end.
(** Result, errno is ERANGE, endPtr. *)
Definition strtoull (base : Z) (s : str) : Z * bool * str :=
  let '(neg, v, rest) := strto base s in
  if v <? two64 then (if neg then (- v) mod two64 else v, false, rest) else (two64 - 1, true, rest).
Definition strtoll (base : Z) (s : str) : Z * bool * str :=
  let '(neg, v, rest) := strto base s in
  let x := if neg then - v else v in
  if x <? - two63 then (- two63, true, rest) else if two63 <=? x then (two63 - 1, true, rest) else (x, false, rest).

(** convert.c:26-43 cvtZToIntValid *)
Definition zValid (errno : bool) (s rest : str) : bool :=
  negb errno && match s with [] => false | c :: _ => negb (isSpace c) end && match rest with [] => true | _ => false end.
(** convert.c:48-68, 73-93 *)
Definition zToInt64Internal (base : Z) (s : str) : res Z :=
  let '(v, errno, rest) := strtoll base s in if zValid errno s rest then Ok v else Err EFormat.
Definition zToUInt64Internal (base : Z) (s : str) : res Z :=
  let '(v, errno, rest) := strtoull base s in if zValid errno s rest then Ok v else Err EFormat.
Definition startsMinus (s : str) : bool := match s with 45 :: _ => true | _ => false end.
(** convert.c:773-789 cvtZToUInt64Base, 703-719 cvtZToUIntBase, 451-461 cvtZToInt64Base, 382-397 cvtZToIntBase, 515 cvtZToMode *)
Definition cvtZToUInt64 (base : Z) (s : str) : res Z :=
  let* v := zToUInt64Internal base s in if startsMinus s then Err EFormat else Ok v.
Definition cvtZToUInt (base : Z) (s : str) : res Z :=
  let* v := zToUInt64Internal base s in if startsMinus s || (two32 - 1 <? v) then Err EFormat else Ok v.
Definition cvtZToInt64 (base : Z) (s : str) : res Z := zToInt64Internal base s.
Definition cvtZToInt (base : Z) (s : str) : res Z :=
  let* v := zToInt64Internal base s in if (two31 - 1 <? v) || (v <? - two31) then Err EFormat else Ok v.
Definition cvtZToMode (s : str) : res Z := cvtZToUInt 8 s.
(** convert.c:733-751 cvtZSubNToUIntBase: the part copied to a buffer of CVT_BASE10_BUFFER_SIZE + 1; the caller guarantees the string
    is long enough. *)
Definition cvtZSubNToUInt (base : Z) (s : str) (offset size : nat) : res Z := cvtZToUInt base (firstn size (skipn offset s)).
