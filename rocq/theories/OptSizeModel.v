(** Sizes and times as text.  Models cfgParseSizeQualifier(), cfgParseSize() and cfgParseTime() (src/config/common.c:15-183) and cvtZSubNToInt64Base() (src/common/type/convert.c:475-493).

    The text has no zero byte.  tolower() is that of the C locale; for bytes of 128 and more, which are negative as char, it is the identity here.  ASSERT() is not in production builds
    (src/common/assert.h:52), so what an ASSERT() guards is undefined behavior here if it does not hold. *)
From Coq Require Import String.
From Verif Require Import Base Str RegNameModel NumModel.
Open Scope Z_scope.
Open Scope list_scope.

(** tolower() *)
Definition lower (c : Z) : Z := if (65 <=? c) && (c <=? 90) then c + 32 else c.
(** string.c:797-810 strLower *)
Definition strLower (s : str) : str := map lower s.
Definition int64Max : Z := 9223372036854775807.
Definition int64Min : Z := -9223372036854775808.

(** The alternatives of the expression (common.c:70) *)
Definition sizeUnits : list str := map txt ["kib"; "kb"; "k"; "mib"; "mb"; "m"; "gib"; "gb"; "g"; "tib"; "tb"; "t"; "pib"; "pb"; "p"; "b"]%string.
(** Any number of alternatives to the end; [fuel] is at least the length of the text *)
Fixpoint unitsMatch (fuel : nat) (s : str) : bool :=
  match s with
  | [] => true
  | _ => match fuel with O => false | S f => existsb (fun u => strBeginsWith s u && unitsMatch f (skipn (List.length u) s)) sizeUnits end
  end.
Definition isDec (c : Z) : bool := (48 <=? c) && (c <=? 57).
(** regExpMatchOne() with ^[0-9]+(...)*$ (common.c:70): one digit or more, then alternatives.  No alternative starts with a digit, so the digits are all there are at the front. *)
Fixpoint dropDigits (s : str) : str := match s with c :: r => if isDec c then dropDigits r else s | [] => [] end.
Definition sizeMatch (s : str) : bool :=
  match s with c :: r => isDec c && unitsMatch (List.length r) (dropDigits r) | [] => false end.

(** common.c:15-55 *)
Definition sizeQualifier (c : Z) : res Z :=
  if c =? 98 then Ok 1
  else if c =? 107 then Ok 1024
  else if c =? 109 then Ok (1024 * 1024)
  else if c =? 103 then Ok (1024 * 1024 * 1024)
  else if c =? 116 then Ok (1024 * 1024 * 1024 * 1024)
  else if c =? 112 then Ok (1024 * 1024 * 1024 * 1024 * 1024)
  else Err EAssert.

(** common.c:57-118.  A position before the start of the text is undefined behavior. *)
Definition at' (s : str) (n : Z) : res Z := if n <? 0 then UB else match nth_error s (Z.to_nat n) with Some c => Ok c | None => Ok 0 end.
Definition parseSize (value : str) : res Z :=
  let s := strLower value in
  if sizeMatch s then
    let size := Z.of_nat (List.length s) in
    let* last := at' s (size - 1) in
    let* pos :=
      if last =? 98 then
        let* prev := at' s (size - 2) in
        Ok (if prev <=? 57 then size - 1 else if prev =? 105 then size - 3 else size - 2)
      else Ok (if 57 <? last then size - 1 else -1) in
    let* ms := (if pos =? -1 then Ok (1, s) else let* c := at' s pos in let* m := sizeQualifier c in Ok (m, firstn (Z.to_nat pos) s)) in
    let* n := cvtZToInt64 10 (snd ms) in
    if Z.quot int64Max (fst ms) <? n then Err EFormat else Ok (n * fst ms)
  else Err EFormat.

(** convert.c:475-493: the part is copied to a buffer of CVT_BASE10_BUFFER_SIZE + 1 = 65 bytes *)
Definition cvtZSubNToInt64 (s : str) (size : nat) : res Z := if (64 <? size)%nat then UB else cvtZToInt64 10 (firstn size s).
(** common.c:120-183.  The multiplication overflows if the product is less than INT64_MIN. *)
Definition parseTime (s : str) : res Z :=
  let size := List.length s in
  let c1 := lower (nth (size - 1) s 0) in
  let '(q, m) :=
    if (1 <? size)%nat && (lower (nth (size - 2) s 0) =? 109) && (c1 =? 115) then (2%nat, 1)
    else if (0 <? size)%nat then
      (if c1 =? 115 then (1%nat, 1000) else if c1 =? 109 then (1%nat, 60000) else if c1 =? 104 then (1%nat, 3600000)
       else if c1 =? 100 then (1%nat, 86400000) else if c1 =? 119 then (1%nat, 604800000) else (0%nat, 1000))
    else (0%nat, 1000) in
  if (0 <? size - q)%nat then
    let* n := cvtZSubNToInt64 s (size - q) in
    if n <=? Z.quot int64Max m then (if n * m <? int64Min then UB else Ok (n * m)) else Err EFormat
  else Err EFormat.
