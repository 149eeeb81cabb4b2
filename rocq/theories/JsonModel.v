(** JSON text.  Models the reader and the writer of src/common/type/json.c.

    A C string is the list of its characters before the terminating zero; the reader's pointer is the list of the characters from it on, so
    that [[]] is the pointer to the terminating zero, and moving beyond it is [UB].  Simplifications: the ASSERTs are left out, as in a
    production build; the stack is NULL exactly when it is empty and the read is not complete; recursion is bounded by the length of the text
    ([Err EOther] when it is used up, which is proved not to happen); the size of the C stack is not modelled. *)
From Verif Require Import Base Str ConvertModel NumModel.
Open Scope Z_scope.

(** json.h JsonType *)
Inductive jtype := TNull | TBool | TNumber | TString | TArrayBegin | TArrayEnd | TObjectBegin | TObjectEnd.
Definition jtypeEqb (a b : jtype) : bool :=
  match a, b with
  | TNull, TNull | TBool, TBool | TNumber, TNumber | TString, TString | TArrayBegin, TArrayBegin | TArrayEnd, TArrayEnd
  | TObjectBegin, TObjectBegin | TObjectEnd, TObjectEnd => true
  | _, _ => false
  end.
(** json.c:55-73 *)
Definition jtypeScalar (t : jtype) : bool := match t with TNull | TBool | TNumber | TString => true | _ => false end.

(** A Variant as the JSON functions use it: NULL, bool, int or int64, unsigned int or uint64, string, list and key/value pairs. *)
Inductive jvar :=
| JNull | JBool (b : bool) | JInt (z : Z) | JUInt (z : Z) | JStr (s : str) | JArr (l : list jvar) | JObj (l : list (str * jvar)).

(** keyValue.c kvPut: replace the value of the key, or add the pair. *)
Fixpoint kvPut {A} (l : list (str * A)) (k : str) (v : A) : list (str * A) :=
  match l with
  | [] => [(k, v)]
  | (k', v') :: r => if strEqb k' k then (k', v) :: r else (k', v') :: kvPut r k v
  end.
(** keyValue.c kvGet *)
Fixpoint kvGet {A} (l : list (str * A)) (k : str) : option A :=
  match l with [] => None | (k', v) :: r => if strEqb k' k then Some v else kvGet r k end.

(** * Reader *)

(** json.c:26-34 with the stack items of json.c:20-24: is the container an object, has an element been read. *)
Record jread := mkJread { jtext : str; jstack : list (bool * bool); jkey : bool; jcomplete : bool }.
Definition setText (st : jread) (s : str) : jread := mkJread s (jstack st) (jkey st) (jcomplete st).
(** json.c:86-106 *)
Definition jsonReadNew (s : str) : jread := mkJread s [] false false.

Definition isWs (c : Z) : bool := (c =? 32) || (c =? 9) || (c =? 10) || (c =? 13).
(** json.c:108-137 *)
Fixpoint jws (s : str) : str := match s with c :: r => if isWs c then jws r else s | [] => [] end.
Definition jsonReadConsumeWhiteSpace (st : jread) : jread := setText st (jws (jtext st)).

Definition isDigit (c : Z) : bool := (48 <=? c) && (c <=? 57).
(** json.c:139-210 after the white space *)
Definition jtypeAt (s : str) : res jtype :=
  match s with
  | [] => Err EJsonFormat
  | c :: _ =>
      if c =? 34 then Ok TString
      else if (c =? 45) || isDigit c then Ok TNumber
      else if (c =? 116) || (c =? 102) then Ok TBool
      else if c =? 110 then Ok TNull
      else if c =? 91 then Ok TArrayBegin
      else if c =? 93 then Ok TArrayEnd
      else if c =? 123 then Ok TObjectBegin
      else if c =? 125 then Ok TObjectEnd
      else Err EJsonFormat
  end.
(** json.c:139-210 *)
Definition jsonReadTypeNext (st : jread) : res (jtype * jread) :=
  let st := jsonReadConsumeWhiteSpace st in
  let* t := jtypeAt (jtext st) in Ok (t, st).
(** json.c:213-236: the white space before the comma is consumed, the comma is not. *)
Definition jsonReadTypeNextIgnoreComma (st : jread) : res (jtype * jread) :=
  let st := jsonReadConsumeWhiteSpace st in
  match jtext st with
  | 44 :: r => let* t := jtypeAt (jws r) in Ok (t, st)
  | _ => jsonReadTypeNext st
  end.

(** json.c:239-327 *)
Definition jsonReadPush (st : jread) (t : jtype) (key : bool) : res jread :=
  if jcomplete st then Err EFormat
  else
    let* (ta, st) := jsonReadTypeNextIgnoreComma st in
    if negb (jtypeEqb ta t) then Err EJsonFormat
    else
      match jstack st with
      | [] => if jtypeScalar t then Ok (mkJread (jtext st) [] (jkey st) true)
              else Ok (mkJread (jtext st) [(match t with TObjectBegin => true | _ => false end, false)] (jkey st) false)
      | (obj, first) :: r =>
          let* k := if key then (if jkey st then Err EAssert else Ok true)
                    else if obj then (if jkey st then Ok false else Err EAssert) else Ok (jkey st) in
          let* s := if first && (negb obj || key) then match jtext st with 44 :: r => Ok (jws r) | _ => Err EJsonFormat end
                    else Ok (jtext st) in
          let stack := (obj, true) :: r in
          Ok (mkJread s (if jtypeScalar t then stack else (match t with TObjectBegin => true | _ => false end, false) :: stack) k false)
      end.
(** json.c:330-372 *)
Definition jsonReadPop (st : jread) (t : jtype) : res jread :=
  if jcomplete st then Err EFormat
  else
    let* (ta, st) := jsonReadTypeNext st in
    if negb (jtypeEqb ta t) then Err EJsonFormat
    else let stack := tl (jstack st) in Ok (mkJread (jtext st) stack (jkey st) (match stack with [] => true | _ => false end)).
(** pointer++ *)
Definition jnext (s : str) : res str := match s with [] => UB | _ :: r => Ok r end.
Definition jadvance (st : jread) : res jread := let* s := jnext (jtext st) in Ok (setText st s).

(** json.c:389-428: the number and whether it is negative (the type of the result); 64 is CVT_BASE10_BUFFER_SIZE. *)
Fixpoint spanDigits (s : str) : nat := match s with c :: r => if isDigit c then S (spanDigits r) else O | [] => O end.
Definition jsonReadNumber (st : jread) : res (bool * Z * jread) :=
  let s := jtext st in
  let neg := match s with 45 :: _ => true | _ => false end in
  let digits := spanDigits (if neg then tl s else s) in
  if (digits =? 0)%nat then Err EJsonFormat
  else if (64 <=? digits)%nat then Err EJsonFormat
  else
    let size := ((if neg then 1 else 0) + digits)%nat in
    let* v := if neg then cvtZToInt64 10 (firstn size s) else cvtZToUInt64 10 (firstn size s) in
    Ok (neg, v, setText st (skipn size s)).

(** json.c:430-459, 759-787 *)
Definition jsonReadArrayBegin (st : jread) : res jread := let* st := jsonReadPush st TArrayBegin false in jadvance st.
Definition jsonReadArrayEnd (st : jread) : res jread := let* st := jsonReadPop st TArrayEnd in jadvance st.
Definition jsonReadObjectBegin (st : jread) : res jread := let* st := jsonReadPush st TObjectBegin false in jadvance st.
Definition jsonReadObjectEnd (st : jread) : res jread := let* st := jsonReadPop st TObjectEnd in jadvance st.

Definition trueZ : str := [116;114;117;101].
Definition falseZ : str := [102;97;108;115;101].
Definition nullZ : str := [110;117;108;108].
(** strncmp(json, w, sizeof(w) - 1) == 0 *)
Definition jbegins (s w : str) : bool := strEqb (firstn (length w) s) w.
(** json.c:461-487 *)
Definition jsonReadBool (st : jread) : res (bool * jread) :=
  let* st := jsonReadPush st TBool false in
  if jbegins (jtext st) trueZ then Ok (true, setText st (skipn 4 (jtext st)))
  else if jbegins (jtext st) falseZ then Ok (false, setText st (skipn 5 (jtext st)))
  else Err EJsonFormat.
(** json.c:738-756 *)
Definition jsonReadNull (st : jread) : res jread :=
  let* st := jsonReadPush st TNull false in
  if jbegins (jtext st) nullZ then Ok (setText st (skipn 4 (jtext st))) else Err EJsonFormat.

(** json.c:490-545, 1106-1146 *)
Definition jsonReadInt (st : jread) : res (Z * jread) :=
  let* st := jsonReadPush st TNumber false in
  let* (neg, v, st) := jsonReadNumber st in
  if (if neg then v <? - two31 else two31 - 1 <? v) then Err EJsonFormat else Ok (v, st).
Definition jsonReadInt64 (st : jread) : res (Z * jread) :=
  let* st := jsonReadPush st TNumber false in
  let* (neg, v, st) := jsonReadNumber st in
  if (if neg : bool then false else two63 - 1 <? v) then Err EJsonFormat else Ok (v, st).
Definition jsonReadUInt (st : jread) : res (Z * jread) :=
  let* st := jsonReadPush st TNumber false in
  let* (neg, v, st) := jsonReadNumber st in
  if (neg : bool) || (two32 - 1 <? v) then Err EJsonFormat else Ok (v, st).
Definition jsonReadUInt64 (st : jread) : res (Z * jread) :=
  let* st := jsonReadPush st TNumber false in
  let* (neg, v, st) := jsonReadNumber st in
  if (neg : bool) then Err EJsonFormat else Ok (v, st).

(** json.c:547-587: key characters up to the quote *)
Fixpoint keyBody (s : str) : res (str * str) :=
  match s with
  | [] => Err EJsonFormat
  | c :: r => if c =? 34 then Ok ([], r) else if c =? 92 then Err EJsonFormat else let* (k, t) := keyBody r in Ok (c :: k, t)
  end.
Definition jsonReadColon (s : str) : res str := match jws s with 58 :: r => Ok r | _ => Err EJsonFormat end.
Definition jsonReadKeyZN (st : jread) : res (str * jread) :=
  let* s := jnext (jtext st) in
  let* (k, s) := keyBody s in
  let* s := jsonReadColon s in
  Ok (k, setText st s).
(** json.c:590-603 *)
Definition jsonReadKey (st : jread) : res (str * jread) := let* st := jsonReadPush st TString true in jsonReadKeyZN st.

(** json.c:790-849: the loop of jsonReadSkipStr.  After the four digits of a \u escape one more character is passed over. *)
Fixpoint skipBody (s : str) : res str :=
  match s with
  | [] => Err EJsonFormat
  | c :: r =>
      if c =? 34 then Ok r
      else if c =? 92 then
        match r with
        | [] => UB
        | e :: r1 =>
            if e =? 117 then
              match r1 with
              | a :: b :: c :: d :: r2 =>
                  if isDigit a && isDigit b && isDigit c && isDigit d then match r2 with [] => UB | _ :: r3 => skipBody r3 end
                  else Err EJsonFormat
              | _ => Err EJsonFormat
              end
            else skipBody r1
        end
      else skipBody r
  end.
Definition jsonReadSkipStr (st : jread) : res jread :=
  let* s := jnext (jtext st) in let* s := skipBody s in Ok (setText st s).

(** while (jsonReadTypeNextIgnoreComma(this) != end) body *)
Fixpoint readLoop {A} (fuel : nat) (e : jtype) (body : A -> jread -> res (A * jread)) (a : A) (st : jread) : res (A * jread) :=
  match fuel with
  | O => Err EOther
  | S f =>
      let* (t, st) := jsonReadTypeNextIgnoreComma st in
      if jtypeEqb t e then Ok (a, st) else let* (a, st) := body a st in readLoop f e body a st
  end.
Definition loopFuel (st : jread) : nat := S (length (jtext st)).

(** json.c:852-920 *)
Fixpoint jsonReadSkipRecurse (fuel : nat) (st : jread) : res jread :=
  match fuel with
  | O => Err EOther
  | S f =>
      let* (t, st) := jsonReadTypeNextIgnoreComma st in
      match t with
      | TBool => let* (_, st) := jsonReadBool st in Ok st
      | TNull => jsonReadNull st
      | TNumber => let* st := jsonReadPush st TNumber false in let* (_, _, st) := jsonReadNumber st in Ok st
      | TString => let* st := jsonReadPush st TString false in jsonReadSkipStr st
      | TArrayBegin =>
          let* st := jsonReadArrayBegin st in
          let* (_, st) := readLoop (loopFuel st) TArrayEnd (fun _ st => let* st := jsonReadSkipRecurse f st in Ok (tt, st)) tt st in
          jsonReadArrayEnd st
      | _ =>
          let* st := jsonReadObjectBegin st in
          let* (_, st) := readLoop (loopFuel st) TObjectEnd
                            (fun _ st => let* st := jsonReadPush st TString true in
                                         let* st := jsonReadSkipStr st in
                                         let* s := jsonReadColon (jtext st) in
                                         let* st := jsonReadSkipRecurse f (setText st s) in Ok (tt, st)) tt st in
          jsonReadObjectEnd st
      end
  end.
(** json.c:922-934 *)
Definition jsonReadSkip (st : jread) : res jread := jsonReadSkipRecurse (S (length (jtext st))) st.

(** json.c:937-1057: the loop of jsonReadStr *)
Fixpoint strBody (s : str) : res (str * str) :=
  match s with
  | [] => Err EJsonFormat
  | c :: r =>
      if c =? 34 then Ok ([], r)
      else if c =? 92 then
        match r with
        | [] => Err EJsonFormat
        | e :: r1 =>
            let plain (x : Z) := let* (t, rest) := strBody r1 in Ok (x :: t, rest) in
            if e =? 34 then plain 34
            else if e =? 92 then plain 92
            else if e =? 47 then plain 47
            else if e =? 110 then plain 10
            else if e =? 114 then plain 13
            else if e =? 116 then plain 9
            else if e =? 98 then plain 8
            else if e =? 102 then plain 12
            else if e =? 117 then
              match r1 with
              | 48 :: 48 :: r2 =>
                  match r2 with
                  | [] => UB
                  | [a] => let* _ := cvtZSubNToUInt 16 [a] 0 2 in UB
                  | a :: b :: r3 => let* v := cvtZSubNToUInt 16 [a; b] 0 2 in let* (t, rest) := strBody r3 in Ok (v :: t, rest)
                  end
              | _ => Err EJsonFormat
              end
            else Err EJsonFormat
        end
      else let* (t, rest) := strBody r in Ok (c :: t, rest)
  end.
(** json.c:937-1057; None is NULL *)
Definition jsonReadStr (st : jread) : res (option str * jread) :=
  let* (t, st) := jsonReadTypeNextIgnoreComma st in
  match t with
  | TNull => let* st := jsonReadNull st in Ok (None, st)
  | _ =>
      let* st := jsonReadPush st TString false in
      let* s := jnext (jtext st) in
      let* (x, s) := strBody s in
      Ok (Some x, setText st s)
  end.
(** json.c:1080-1103 *)
Definition jsonReadStrLst (st : jread) : res (list (option str) * jread) :=
  let* st := jsonReadArrayBegin st in
  let* (l, st) := readLoop (loopFuel st) TArrayEnd (fun l st => let* (x, st) := jsonReadStr st in Ok (l ++ [x], st)) [] st in
  let* st := jsonReadArrayEnd st in
  Ok (l, st).

(** json.c:1149-1231 *)
Fixpoint jsonReadVarRecurse (fuel : nat) (st : jread) : res (jvar * jread) :=
  match fuel with
  | O => Err EOther
  | S f =>
      let* (t, st) := jsonReadTypeNextIgnoreComma st in
      match t with
      | TBool => let* (b, st) := jsonReadBool st in Ok (JBool b, st)
      | TNull => let* st := jsonReadNull st in Ok (JNull, st)
      | TNumber =>
          let* st := jsonReadPush st TNumber false in
          let* (neg, v, st) := jsonReadNumber st in
          Ok (if neg : bool then JInt v else JUInt v, st)
      | TString => let* (x, st) := jsonReadStr st in Ok (match x with Some s => JStr s | None => JNull end, st)
      | TArrayBegin =>
          let* st := jsonReadArrayBegin st in
          let* (l, st) := readLoop (loopFuel st) TArrayEnd (fun l st => let* (x, st) := jsonReadVarRecurse f st in Ok (l ++ [x], st)) [] st in
          let* st := jsonReadArrayEnd st in
          Ok (JArr l, st)
      | _ =>
          let* st := jsonReadObjectBegin st in
          let* (l, st) := readLoop (loopFuel st) TObjectEnd
                            (fun l st => let* (k, st) := jsonReadKey st in
                                         let* (x, st) := jsonReadVarRecurse f st in Ok (kvPut l k x, st)) [] st in
          let* st := jsonReadObjectEnd st in
          Ok (JObj l, st)
      end
  end.
(** json.c:1233-1268 *)
Definition jsonReadVar (st : jread) : res (jvar * jread) := jsonReadVarRecurse (S (length (jtext st))) st.
Definition jsonToVar (s : str) : res jvar := let* (v, _) := jsonReadVar (jsonReadNew s) in Ok v.

(** json.c:1271-1298 *)
Definition jsonValidate (s : str) : res unit :=
  let* st := jsonReadSkip (jsonReadNew s) in
  match jws (jtext st) with [] => Ok tt | _ => Err EJsonFormat end.

(** json.c:606-658.  strncmp() compares up to the size of the key that was read, and the characters after it are the closing quote. *)
Fixpoint strncmpKey (key next : str) : comparison :=
  match next with
  | [] => Eq
  | y :: n' => match key with [] => Lt | x :: k' => match x ?= y with Eq => strncmpKey k' n' | c => c end end
  end.
Fixpoint keyExpectLoop (fuel : nat) (key : str) (st : jread) : res (bool * jread) :=
  match fuel with
  | O => Err EOther
  | S f =>
      let* (t, st) := jsonReadTypeNextIgnoreComma st in
      match t with
      | TObjectEnd => Ok (false, st)
      | _ =>
          let* st1 := jsonReadPush st TString true in
          let* (next, st1) := jsonReadKeyZN st1 in
          match strncmpKey key next with
          | Eq => Ok (true, st1)
          | Lt => Ok (false, mkJread (jtext st) (jstack st) false (jcomplete st1))
          | Gt => let* st2 := jsonReadSkip st1 in keyExpectLoop f key st2
          end
      end
  end.
Definition jsonReadKeyExpect (st : jread) (key : str) : res (bool * jread) :=
  let st := jsonReadConsumeWhiteSpace st in keyExpectLoop (loopFuel st) key st.
(** json.c:690-705 *)
Definition jsonReadKeyRequire (st : jread) (key : str) : res jread :=
  let* (found, st) := jsonReadKeyExpect st key in if found : bool then Ok st else Err EJsonFormat.

(** * Writer *)

(** json.c:36-51: the stack items hold: object, element written, last key. *)
Record jwrite := mkJwrite { wtext : str; wstack : list (bool * bool * str); wkey : bool; wcomplete : bool }.
Definition jsonWriteNew : jwrite := mkJwrite [] [] false false.
Definition wcat (w : jwrite) (s : str) : jwrite := mkJwrite (wtext w ++ s) (wstack w) (wkey w) (wcomplete w).

(** json.c:1331-1421: 67 is the size of keyLast *)
Definition jsonWritePush (w : jwrite) (t : jtype) (key : option str) : res jwrite :=
  if wcomplete w then Err EJsonFormat
  else
    let isObj := match t with TObjectBegin => true | _ => false end in
    match wstack w with
    | [] => if jtypeScalar t then Ok (mkJwrite (wtext w) [] (wkey w) true)
            else Ok (mkJwrite (wtext w) [(isObj, false, [])] (wkey w) false)
    | (obj, first, last) :: r =>
        let* (k, last') :=
          match key with
          | Some k =>
              if wkey w then Err EJsonFormat
              else if match last with [] => false | _ => strLeb k last end then Err EJsonFormat
              else if (67 <=? length k)%nat then Err EAssert
              else Ok (true, k)
          | None => if obj : bool then (if wkey w then Ok (false, last) else Err EJsonFormat) else Ok (wkey w, last)
          end in
        let comma := (first : bool) && (negb obj || match key with Some _ => true | None => false end) in
        let stack := (obj, true, last') :: r in
        Ok (mkJwrite (wtext w ++ if comma then [44] else []) (if jtypeScalar t then stack else (isObj, false, []) :: stack) k false)
    end.
(** json.c:1423-1448 *)
Definition jsonWritePop (w : jwrite) : jwrite :=
  let stack := tl (wstack w) in mkJwrite (wtext w) stack (wkey w) (match stack with [] => true | _ => wcomplete w end).

(** json.c:1668-1767 *)
Definition jsonEscape (c : Z) : str :=
  if c =? 34 then [92;34] else if c =? 92 then [92;92] else if c =? 10 then [92;110] else if c =? 13 then [92;114]
  else if c =? 9 then [92;116] else if c =? 8 then [92;98] else if c =? 12 then [92;102] else [c].
Definition jsonQuote (s : str) : str := 34 :: flat_map jsonEscape s ++ [34].
Definition jsonWriteStr (w : jwrite) (s : str) : res jwrite := let* w := jsonWritePush w TString None in Ok (wcat w (jsonQuote s)).
(** json.c:1620-1634, 1482-1496, 1499-1535, 1844-1879 *)
Definition jsonWriteNull (w : jwrite) : res jwrite := let* w := jsonWritePush w TNull None in Ok (wcat w nullZ).
Definition jsonWriteBool (w : jwrite) (b : bool) : res jwrite :=
  let* w := jsonWritePush w TBool None in Ok (wcat w (if b then trueZ else falseZ)).
Definition jsonWriteInt (w : jwrite) (z : Z) : res jwrite := let* w := jsonWritePush w TNumber None in Ok (wcat w (cvtIntToZ z)).
Definition jsonWriteUInt (w : jwrite) (z : Z) : res jwrite := let* w := jsonWritePush w TNumber None in Ok (wcat w (cvtUIntToZ z)).
(** json.c:1451-1479, 1637-1665 *)
Definition jsonWriteBegin (w : jwrite) (obj : bool) : res jwrite :=
  let* w := jsonWritePush w (if obj then TObjectBegin else TArrayBegin) None in Ok (wcat w (if obj then [123] else [91])).
Definition jsonWriteEnd (w : jwrite) (obj : bool) : jwrite := wcat (jsonWritePop w) (if obj then [125] else [93]).
(** json.c:1559-1581 *)
Definition jsonWriteKey (w : jwrite) (k : str) : res jwrite :=
  let* w := jsonWritePush w TString (Some k) in Ok (wcat w (34 :: k ++ [34;58])).

(** json.c:1882-1994: the keys in ascending order, each with its value; [l] is sorted as one list of pairs. *)
Definition kvSorted {A} (l : list (str * A)) : list (str * A) := sortBy fst strLeb l.
Fixpoint jsonWriteVarRecurse (w : jwrite) (v : jvar) : res jwrite :=
  match v with
  | JNull => jsonWriteNull w
  | JBool b => jsonWriteBool w b
  | JInt z => jsonWriteInt w z
  | JUInt z => jsonWriteUInt w z
  | JStr s => jsonWriteStr w s
  | JArr l =>
      let* w := jsonWriteBegin w false in
      let* w := (fix go (l : list jvar) (w : jwrite) : res jwrite :=
                   match l with [] => Ok w | x :: r => let* w := jsonWriteVarRecurse w x in go r w end) l w in
      Ok (jsonWriteEnd w false)
  | JObj l =>
      let* w := jsonWriteBegin w true in
      let* w := fold_left (fun (rw : res jwrite) (p : str * (jwrite -> res jwrite)) =>
                             let* w := rw in let* w := jsonWriteKey w (fst p) in snd p w)
                  (kvSorted ((fix go (l : list (str * jvar)) : list (str * (jwrite -> res jwrite)) :=
                                match l with [] => [] | (k, x) :: r => (k, fun w => jsonWriteVarRecurse w x) :: go r end) l)) (Ok w) in
      Ok (jsonWriteEnd w true)
  end.
(** json.c:2026-2045 *)
Definition jsonFromVar (v : jvar) : res str := let* w := jsonWriteVarRecurse jsonWriteNew v in Ok (wtext w).
