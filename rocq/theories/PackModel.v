(** The pack format: src/common/type/pack.c.

    Bytes are written to and read from a list.  Reading from an IoRead gives the same results as reading from a buffer: each read takes exactly
    the number of bytes asked for (pack.c:415-452), and data is complete or the read fails with FormatError.  [unsigned int] arithmetic is modulo
    2^32.  Not modelled: pckReadConsume, pckReadNext, pckReadPackRead*, pckReadStrLst (a loop over pckReadStr in an array), logging and
    conversion to text. *)
From Verif Require Import Base ConvertModel.
Open Scope Z_scope.

(** pack.c:111-133 PackTypeMap *)
Definition tArray := 1. Definition tBool := 2. Definition tI32 := 3. Definition tI64 := 4. Definition tObj := 5. Definition tStr := 7.
Definition tU32 := 8. Definition tU64 := 9. Definition tStrId := 10. Definition tTime := 15. Definition tBin := 16. Definition tPack := 17. Definition tMode := 18.
(** pack.c:143-216 packTypeMapData: type != 0, valueSingleBit, valueMultiBit, size *)
Definition typeKnown (t : Z) : bool := existsb (Z.eqb t) [tArray; tBool; tI32; tI64; tObj; tStr; tU32; tU64; tStrId; tTime; tBin; tPack; tMode].
Definition typeSingle (t : Z) : bool := existsb (Z.eqb t) [tBool; tStr; tBin].
Definition typeMulti (t : Z) : bool := existsb (Z.eqb t) [tI32; tI64; tU32; tU64; tStrId; tTime; tMode].
Definition typeSize (t : Z) : bool := existsb (Z.eqb t) [tStr; tBin; tPack].

Definition uintMax : Z := two32 - 1.

(** * Writing *)

(** pack.c:221-226, 252-258: container type, last id, nulls since the last tag; the bottom is an object. *)
Record wFrame := mkWFrame { wfType : Z; wfLast : Z; wfNull : Z }.
Record pwrite := mkPWrite { pwBuf : list Z; pwTop : wFrame; pwStack : list wFrame }.
Definition pckWriteNew : pwrite := mkPWrite [] (mkWFrame tObj 0 0) [].

(** pack.c:1416-1498: the bytes of a tag for an id [delta] *)
Definition tagBytes (t delta value : Z) : res (list Z) :=
  let tag0 := if 15 <=? t then 240 else Z.shiftl t 4 in
  let* (tag, idHigh, valueHigh) :=
    if typeMulti t then
      if value <? 2 then
        let tag1 := Z.lor tag0 (Z.shiftl (Z.land value 1) 2) in
        let tag2 := Z.lor tag1 (Z.land delta 1) in
        let d := Z.shiftr delta 1 in
        Ok (if 0 <? d then Z.lor tag2 2 else tag2, d, Z.shiftr value 1)
      else
        let tag1 := Z.lor tag0 8 in
        let tag2 := Z.lor tag1 (Z.land delta 3) in
        let d := Z.shiftr delta 2 in
        Ok (if 0 <? d then Z.lor tag2 4 else tag2, d, value)
    else if typeSingle t then
      let tag1 := Z.lor tag0 (Z.shiftl (Z.land value 1) 3) in
      let tag2 := Z.lor tag1 (Z.land delta 3) in
      let d := Z.shiftr delta 2 in
      Ok (if 0 <? d then Z.lor tag2 4 else tag2, d, Z.shiftr value 1)
    else if negb (value =? 0) then Err EAssert
    else
      let tag2 := Z.lor tag0 (Z.land delta 7) in
      let d := Z.shiftr delta 3 in
      Ok (if 0 <? d then Z.lor tag2 8 else tag2, d, value) in
  let* a := if 15 <=? t then toVarInt (t - 15) else Ok [] in
  let* b := if 0 <? idHigh then toVarInt idHigh else Ok [] in
  let* c := if 0 <? valueHigh then toVarInt valueHigh else Ok [] in
  Ok (tag mod 256 :: a ++ b ++ c).
(** pack.c:1392-1504 pckWriteTag *)
Definition pckWriteTag (w : pwrite) (t id value : Z) : res pwrite :=
  let top := pwTop w in
  let id' := if id =? 0 then (wfLast top + wfNull top + 1) mod two32 else id in
  if negb (id =? 0) && (id <=? wfLast top) then Err EAssert
  else let* b := tagBytes t ((id' - wfLast top - 1) mod two32) value in
       Ok (mkPWrite (pwBuf w ++ b) (mkWFrame (wfType top) id' 0) (pwStack w)).

Definition wPut (w : pwrite) (b : list Z) : pwrite := mkPWrite (pwBuf w ++ b) (pwTop w) (pwStack w).
(** pack.c:1532-1542 pckWriteNull *)
Definition pckWriteNull (w : pwrite) : pwrite :=
  mkPWrite (pwBuf w) (mkWFrame (wfType (pwTop w)) (wfLast (pwTop w)) ((wfNull (pwTop w) + 1) mod two32)) (pwStack w).
(** pack.c:1545-1562, 1696-1713 pckWriteArrayBegin, pckWriteObjBegin *)
Definition pckWriteBegin (w : pwrite) (t id : Z) : res pwrite :=
  let* w1 := pckWriteTag w t id 0 in Ok (mkPWrite (pwBuf w1) (mkWFrame t 0 0) (pwTop w1 :: pwStack w1)).
(** pack.c:1564-1583, 1715-1734 pckWriteArrayEnd, pckWriteObjEnd with pckTagStackPopCheck and pckTagStackPop (291-333) *)
Definition pckWriteEndCont (w : pwrite) (t : Z) : res pwrite :=
  match pwStack w with
  | [] => Err EFormat
  | top :: rest => if wfType (pwTop w) =? t then Ok (mkPWrite (pwBuf w ++ [0]) top rest) else Err EFormat
  end.
(** pack.c:1898-1920 pckWriteEnd: the finished pack *)
Definition pckWriteEnd (w : pwrite) : res (list Z) :=
  match pwStack w with [] => Ok (pwBuf w ++ [0]) | _ => Err EAssert end.

(** Values of the non-container types. *)
Inductive scalar :=
| SBool (b : bool) | SI32 (v : Z) | SI64 (v : Z) | SU32 (v : Z) | SU64 (v : Z) | SStrId (v : Z) | STime (v : Z) | SMode (v : Z)
| SStr (s : list Z) | SBin (s : list Z) | SPack (s : list Z).
Definition eqbList (a b : list Z) : bool := (length a =? length b)%nat && forallb (fun p => fst p =? snd p) (combine a b).
Definition scalarEqb (a b : scalar) : bool :=
  match a, b with
  | SBool x, SBool y => Bool.eqb x y
  | SI32 x, SI32 y | SI64 x, SI64 y | SU32 x, SU32 y | SU64 x, SU64 y | SStrId x, SStrId y | STime x, STime y | SMode x, SMode y => x =? y
  | SStr x, SStr y | SBin x, SBin y | SPack x, SPack y => eqbList x y
  | _, _ => false
  end.
Definition optEqb (a b : option scalar) : bool :=
  match a, b with None, None => true | Some x, Some y => scalarEqb x y | _, _ => false end.

(** size and data following the tag *)
Definition putSized (w : pwrite) (s : list Z) : res pwrite := let* n := toVarInt (Z.of_nat (length s)) in Ok (wPut (wPut w n) s).
Definition nonEmpty (s : list Z) : bool := match s with [] => false | _ => true end.
(** The pckWrite* functions for values, pack.c:1586-1693, 1737-1808, 1838-1895.  [v] is NULL or the value, [dflt] the default value (NULL for Bin and
    Pack, which have no default). *)
Definition pckWriteScalar (w : pwrite) (id : Z) (defaultWrite : bool) (dflt v : option scalar) : res pwrite :=
  if negb defaultWrite && optEqb v dflt then Ok (pckWriteNull w)
  else match v with
       | None => Err EAssert
       | Some (SBool b) => pckWriteTag w tBool id (if b then 1 else 0)
       | Some (SI32 x) => pckWriteTag w tI32 id (zigZag32 x)
       | Some (SI64 x) => pckWriteTag w tI64 id (zigZag64 x)
       | Some (SU32 x) => pckWriteTag w tU32 id x
       | Some (SU64 x) => pckWriteTag w tU64 id x
       | Some (SStrId x) => pckWriteTag w tStrId id x
       | Some (STime x) => pckWriteTag w tTime id (zigZag64 x)
       | Some (SMode x) => pckWriteTag w tMode id x
       | Some (SStr s) => let* w1 := pckWriteTag w tStr id (if nonEmpty s then 1 else 0) in if nonEmpty s then putSized w1 s else Ok w1
       | Some (SBin s) => let* w1 := pckWriteTag w tBin id (if nonEmpty s then 1 else 0) in if nonEmpty s then putSized w1 s else Ok w1
       | Some (SPack s) => let* w1 := pckWriteTag w tPack id 0 in putSized w1 s
       end.

(** A sequence of calls; [WCont] is pckWriteArrayBegin or pckWriteObjBegin, the calls in between, and the matching end. *)
Inductive wop :=
| WNull
| WScalar (id : Z) (defaultWrite : bool) (dflt v : option scalar)
| WCont (t id : Z) (ops : list wop).
Fixpoint runW (w : pwrite) (o : wop) {struct o} : res pwrite :=
  match o with
  | WNull => Ok (pckWriteNull w)
  | WScalar id dw d v => pckWriteScalar w id dw d v
  | WCont t id ops =>
      let* w1 := pckWriteBegin w t id in
      let* w2 := (fix go (w : pwrite) (l : list wop) {struct l} : res pwrite := match l with [] => Ok w | o :: r => let* w' := runW w o in go w' r end) w1 ops in
      pckWriteEndCont w2 t
  end.
Fixpoint runWs (w : pwrite) (l : list wop) : res pwrite := match l with [] => Ok w | o :: r => let* w' := runW w o in runWs w' r end.
Definition packWrite (l : list wop) : res (list Z) := let* w := runWs pckWriteNew l in pckWriteEnd w.

(** * Reading *)

(** pack.c:236-250: the bytes not consumed, the next tag, and the containers (type and last id). *)
Record pread := mkPRead { prBuf : list Z; prId : Z; prType : Z; prValue : Z; prSize : Z; prTop : Z * Z; prStack : list (Z * Z) }.
Definition pckReadNew (b : list Z) : pread := mkPRead b 0 0 0 0 (tObj, 0) [].
Definition rLast (r : pread) : Z := snd (prTop r).
Definition rSetLast (r : pread) (id : Z) : pread := mkPRead (prBuf r) (prId r) (prType r) (prValue r) (prSize r) (fst (prTop r), id) (prStack r).
Definition rSetId (r : pread) (id : Z) : pread := mkPRead (prBuf r) id (prType r) (prValue r) (prSize r) (prTop r) (prStack r).
Definition rSetBuf (r : pread) (b : list Z) : pread := mkPRead b (prId r) (prType r) (prValue r) (prSize r) (prTop r) (prStack r).

(** [n] bytes read in chunks with pckReadBuffer, pack.c:415-452 *)
Definition takeBytes (n : Z) (b : list Z) : res (list Z * list Z) :=
  if Z.of_nat (length b) <? n then Err EFormat else Ok (firstn (Z.to_nat n) b, skipn (Z.to_nat n) b).
(** (unsigned int)value << k *)
Definition uintShl (v k : Z) : Z := Z.shiftl (v mod two32) k mod two32.

(** pack.c:501-609 pckReadTagNext *)
Definition pckReadTagNext (r : pread) : res pread :=
  match prBuf r with
  | [] => Err EFormat
  | tag :: b0 =>
      if tag =? 0 then Ok (mkPRead b0 uintMax (prType r) (prValue r) (prSize r) (prTop r) (prStack r))
      else
        let* (t, b1) := if Z.shiftr tag 4 =? 15 then let* (x, b) := fromVarInt b0 in Ok ((x + 15) mod two32, b) else Ok (Z.shiftr tag 4, b0) in
        if negb (typeKnown t) then Err EFormat
        else
          let* (id, value, b2) :=
            if typeMulti t then
              if negb (Z.land tag 8 =? 0) then
                let* (id, b) := if negb (Z.land tag 4 =? 0) then let* (x, b) := fromVarInt b1 in Ok (Z.lor (Z.land tag 3) (uintShl x 2), b) else Ok (Z.land tag 3, b1) in
                let* (v, b') := fromVarInt b in Ok (id, v, b')
              else
                let* (id, b) := if negb (Z.land tag 2 =? 0) then let* (x, b) := fromVarInt b1 in Ok (Z.lor (Z.land tag 1) (uintShl x 1), b) else Ok (Z.land tag 1, b1) in
                Ok (id, Z.land (Z.shiftr tag 2) 3, b)
            else if typeSingle t then
              let* (id, b) := if negb (Z.land tag 4 =? 0) then let* (x, b) := fromVarInt b1 in Ok (Z.lor (Z.land tag 3) (uintShl x 2), b) else Ok (Z.land tag 3, b1) in
              Ok (id, Z.land (Z.shiftr tag 3) 1, b)
            else
              let* (id, b) := if negb (Z.land tag 8 =? 0) then let* (x, b) := fromVarInt b1 in Ok (Z.lor (Z.land tag 7) (uintShl x 3), b) else Ok (Z.land tag 7, b1) in
              Ok (id, 0, b) in
          let id' := (id + rLast r + 1) mod two32 in
          let* (size, b3) := if typeSize t && ((0 <? value) || negb (typeSingle t)) then fromVarInt b2 else Ok (0, b2) in
          Ok (mkPRead b3 id' t value size (prTop r) (prStack r))
  end.

(** pack.c:458-474 pckReadConsumeBuffer *)
Definition consumeBuffer (r : pread) : res pread :=
  let* (_, b) := takeBytes (prSize r) (prBuf r) in Ok (mkPRead b (prId r) (prType r) (prValue r) 0 (prTop r) (prStack r)).
(** pack.c:640-680: the search loop of pckReadTag *)
Fixpoint readTagLoop (fuel : nat) (r : pread) (id t : Z) (peek : bool) : res pread :=
  match fuel with
  | O => UB
  | S fuel' =>
      let* r1 := if prId r =? 0 then pckReadTagNext r else Ok r in
      if id <? prId r1 then Ok r1
      else if id =? prId r1 then
        if peek then Ok r1
        else if negb (prType r1 =? t) then Err EFormat
        else Ok (rSetId (rSetLast r1 (prId r1)) 0)
      else
        let* r2 := consumeBuffer r1 in
        readTagLoop fuel' (rSetId (rSetLast r2 (prId r2)) 0) id t peek
  end.
(** pack.c:616-683 pckReadTag: the reader, the id and the value *)
Definition pckReadTag (r : pread) (id t : Z) (peek : bool) : res (pread * Z * Z) :=
  let id' := if id =? 0 then (rLast r + 1) mod two32 else id in
  if negb (id =? 0) && (id <=? rLast r) then Err EFormat
  else let* r' := readTagLoop (length (prBuf r) + 2) r id' t peek in Ok (r', id', prValue r').
(** pack.c:763-786 pckReadNullInternal *)
Definition pckReadNull (r : pread) (id : Z) : res (pread * Z * bool) :=
  let* (r1, id', _) := pckReadTag r id 0 true in
  if id' <? prId r1 then Ok (rSetLast r1 id', id', true) else Ok (r1, id', false).

Inductive kind := KBool | KI32 | KI64 | KU32 | KU64 | KStrId | KTime | KMode | KStr | KBin | KPack.
Definition kindType (k : kind) : Z :=
  match k with KBool => tBool | KI32 => tI32 | KI64 => tI64 | KU32 => tU32 | KU64 => tU64 | KStrId => tStrId | KTime => tTime | KMode => tMode
  | KStr => tStr | KBin => tBin | KPack => tPack end.
Definition readData (r : pread) (mk : list Z -> scalar) : res (pread * option scalar) :=
  let* (d, b) := takeBytes (prSize r) (prBuf r) in Ok (rSetBuf r b, Some (mk d)).
(** The pckRead* functions for values, pack.c:860-966, 1052-1138, 1171-1222 *)
Definition pckReadScalar (r : pread) (k : kind) (id : Z) (dflt : option scalar) : res (pread * option scalar) :=
  let* (r1, id', null) := pckReadNull r id in
  if null then Ok (r1, dflt)
  else let* (r2, _, v) := pckReadTag r1 id' (kindType k) false in
       match k with
       | KBool => Ok (r2, Some (SBool (negb (v =? 0))))
       | KI32 => Ok (r2, Some (SI32 (unZigZag32 (v mod two32))))
       | KI64 => Ok (r2, Some (SI64 (unZigZag64 v)))
       | KU32 => Ok (r2, Some (SU32 (v mod two32)))
       | KU64 => Ok (r2, Some (SU64 v))
       | KStrId => Ok (r2, Some (SStrId v))
       | KTime => Ok (r2, Some (STime (unZigZag64 v)))
       | KMode => Ok (r2, Some (SMode (v mod two32)))
       | KStr => if negb (v =? 0) then readData r2 SStr else Ok (r2, Some (SStr []))
       | KBin => if negb (v =? 0) then readData r2 SBin else Ok (r2, Some (SBin []))
       | KPack => readData r2 SPack
       end.
(** pack.c:815-832, 969-986 pckReadArrayBegin, pckReadObjBegin *)
Definition pckReadBegin (r : pread) (t id : Z) : res pread :=
  let* (r1, _, _) := pckReadTag r id t false in
  Ok (mkPRead (prBuf r1) (prId r1) (prType r1) (prValue r1) (prSize r1) (t, 0) (prTop r1 :: prStack r1)).
(** pack.c:834-857, 988-1011 pckReadArrayEnd, pckReadObjEnd *)
Definition pckReadEndCont (r : pread) (t : Z) : res pread :=
  match prStack r with
  | [] => Err EFormat
  | top :: rest =>
      if fst (prTop r) =? t then
        let* (r1, _, _) := pckReadTag r (uintMax - 1) 0 true in
        Ok (mkPRead (prBuf r1) 0 (prType r1) (prValue r1) (prSize r1) top rest)
      else Err EFormat
  end.
(** pack.c:1225-1242 pckReadEnd: the bytes after the pack *)
Definition pckReadEnd (r : pread) : res (list Z) :=
  match prStack r with
  | [] => let* (r1, _, _) := pckReadTag r (uintMax - 1) 0 true in Ok (prBuf r1)
  | _ => Err EFormat
  end.

(** A sequence of calls and what they return. *)
Inductive rop := RScalar (k : kind) (id : Z) (dflt : option scalar) | RNull (id : Z) | RCont (t id : Z) (ops : list rop).
Inductive out := OScalar (v : option scalar) | ONull (b : bool) | OCont (l : list out).
Fixpoint runR (r : pread) (o : rop) {struct o} : res (pread * out) :=
  match o with
  | RScalar k id d => let* (r1, v) := pckReadScalar r k id d in Ok (r1, OScalar v)
  | RNull id => let* (r1, _, b) := pckReadNull r id in Ok (r1, ONull b)
  | RCont t id ops =>
      let* r1 := pckReadBegin r t id in
      let* (r2, l) := (fix go (r : pread) (ops : list rop) {struct ops} : res (pread * list out) :=
        match ops with [] => Ok (r, []) | o :: rest => let* (r', x) := runR r o in let* (r'', xs) := go r' rest in Ok (r'', x :: xs) end) r1 ops in
      let* r3 := pckReadEndCont r2 t in Ok (r3, OCont l)
  end.
Fixpoint runRs (r : pread) (ops : list rop) : res (pread * list out) :=
  match ops with [] => Ok (r, []) | o :: rest => let* (r', x) := runR r o in let* (r'', xs) := runRs r' rest in Ok (r'', x :: xs) end.
Definition packRead (b : list Z) (ops : list rop) : res (list out * list Z) :=
  let* (r, l) := runRs (pckReadNew b) ops in let* rest := pckReadEnd r in Ok (l, rest).
