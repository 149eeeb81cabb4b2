(** Block incremental map: src/command/backup/blockMap.c.

    A map is a list of items in the order of the blocks of the file.  ASSERTs are not compiled into production builds and are not modelled.
    Sizes and offsets are uint64_t, references unsigned int, arithmetic wraps; a flag test [x & FLAG] is a bit test.  Reading from the IoRead
    past its end gives a short checksum (ioRead returns what there is) and an error for a varint (read.c). *)
From Verif Require Import Base ConvertModel.
Open Scope Z_scope.

(** blockMap.h:21-30 BlockMapItem.  The checksum has exactly the checksum size given when reading and writing. *)
Record item := mkItem { iRef : Z; iSbs : Z; iBundle : Z; iOff : Z; iSize : Z; iBlock : Z; iSum : list Z }.
(** blockMap.c:57-65 BlockMapReference *)
Record refData := mkRef { rdRef : Z; rdSbs : Z; rdBundle : Z; rdOff : Z; rdSize : Z; rdBlock : Z }.

Definition u64 (x : Z) : Z := x mod two64.
Definition i64 (x : Z) : Z := let u := x mod two64 in if u <? 2 ^ 63 then u else u - two64.

(** lstFind and update in place (the list of references is not sorted), lstAdd *)
Definition refFind (refs : list refData) (ref : Z) : option refData := find (fun r => rdRef r =? ref) refs.
Fixpoint refSet (refs : list refData) (rd : refData) : list refData :=
  match refs with
  | [] => [rd]
  | r :: rest => if rdRef r =? rdRef rd then rd :: rest else r :: refSet rest rd
  end.

(** Number of blocks in a super block of a given size, blockMap.c:227, 402 *)
Definition sbBlocks (bs sbs : Z) : Z := sbs / bs + (if sbs mod bs =? 0 then 0 else 1).

(** * Writing *)

(** Runs of equal keys: the loops at blockMap.c:302-311 (same reference) and 388-395 (same offset). *)
Fixpoint runs (key : item -> Z) (l : list item) : list (list item) :=
  match l with
  | [] => []
  | x :: r => match runs key r with
              | (y :: g) :: gs => if key x =? key y then (x :: y :: g) :: gs else [x] :: (y :: g) :: gs
              | gs => [x] :: gs
              end
  end.

(** io/write.c ioWriteVarIntU64 *)
Definition wVar (v : Z) : res (list Z) := toVarInt (u64 v).
(** referenceEncoded | reference << 3, the shift is done on an unsigned int *)
Definition refEncode (flags ref : Z) : Z := Z.lor flags (Z.shiftl ref 3 mod two32).
Definition bit (b : bool) (k : Z) : Z := if b then k else 0.

(** blockMap.c:381-492: the super blocks of a reference *)
Fixpoint writeSbs (bs flags ref : Z) (rd : refData) (sizeLast : Z) (cont : bool) (groups : list (list item)) : res (list Z * refData * Z) :=
  match groups with
  | [] => Ok ([], rd, sizeLast)
  | [] :: _ => UB
  | ((sb :: _) as g) :: rest =>
      let last := match rest with [] => true | _ => false end in
      let total := Z.of_nat (length g) in
      let totFlag := cont || negb (iBlock sb =? 0) || negb (total =? sbBlocks bs (iSbs sb)) in
      let* (b1, rd1) :=
        if cont then let* b := wVar (refEncode (Z.lor flags (bit last 4)) ref) in Ok (b, rd)
        else
          let change := negb (iSbs sb =? rdSbs rd) in
          let rd' := mkRef (rdRef rd) (iSbs sb) (rdBundle rd) (iOff sb) (iSize sb) 0 in
          let* b := wVar (Z.lor (Z.lor (bit last 1) (Z.lor (bit totFlag 4) (bit change 2)))
                                (u64 (Z.shiftl (if sizeLast =? 0 then iSize sb else zigZag64 (i64 (i64 (iSize sb) - sizeLast))) 3))) in
          if change then
            let remainder := negb (iSbs sb mod bs =? 0) in
            let* c := wVar (Z.lor (Z.shiftl (iSbs sb / bs) 1) (bit remainder 1)) in
            let* d := if remainder then wVar (iSbs sb mod bs) else Ok [] in
            Ok (b ++ c ++ d, rd')
          else Ok (b, rd') in
      let gap := u64 (iBlock sb - rdBlock rd1) in
      let* (b2, rd2) :=
        if totFlag then
          let* b := wVar (Z.lor (Z.shiftl (total - 1) 1 mod two32) (bit (0 <? gap) 1)) in
          if 0 <? gap then let* c := wVar gap in Ok (b ++ c, mkRef (rdRef rd1) (rdSbs rd1) (rdBundle rd1) (rdOff rd1) (rdSize rd1) (iBlock sb))
          else Ok (b, rd1)
        else Ok ([], rd1) in
      let rd3 := mkRef (rdRef rd2) (rdSbs rd2) (rdBundle rd2) (rdOff rd2) (rdSize rd2) (u64 (rdBlock rd2 + total)) in
      let* (b3, rd4, sl) := writeSbs bs flags ref rd3 (i64 (iSize sb)) false rest in
      Ok (b1 ++ b2 ++ concat (map iSum g) ++ b3, rd4, sl)
  end.

(** blockMap.c:293-493: the references *)
Fixpoint writeRefs (bs : Z) (refs : list refData) (sizeLast : Z) (groups : list (list item)) : res (list Z) :=
  match groups with
  | [] => Ok []
  | [] :: _ => UB
  | ((r :: _) as g) :: rest =>
      let last := match rest with [] => true | _ => false end in
      let* (b, rd, flags, cont) :=
        match refFind refs (iRef r) with
        | None =>
            let flags := Z.lor (bit last 1) (Z.lor (bit (0 <? iBundle r) 2) (bit (0 <? iOff r) 4)) in
            let* a := wVar (refEncode flags (iRef r)) in
            let* b := if 0 <? iBundle r then wVar (iBundle r) else Ok [] in
            let* c := if 0 <? iOff r then wVar (iOff r) else Ok [] in
            Ok (a ++ b ++ c, mkRef (iRef r) bs (iBundle r) (iOff r) 0 0, flags, false)
        | Some rd =>
            if iOff r =? rdOff rd then Ok ([], rd, Z.lor (bit last 1) 2, true)
            else
              let offset := u64 (rdOff rd + rdSize rd) <? iOff r in
              let flags := Z.lor (bit last 1) (bit offset 4) in
              let* a := wVar (refEncode flags (iRef r)) in
              let* b := if offset then wVar (iOff r - (rdOff rd + rdSize rd)) else Ok [] in
              Ok (a ++ b, mkRef (rdRef rd) (rdSbs rd) (rdBundle rd) (iOff r) (iSize r) (rdBlock rd), flags, false)
        end in
      let* (c, rd', sl) := writeSbs bs flags (iRef r) rd sizeLast cont (runs iOff g) in
      let* d := writeRefs bs (refSet refs rd') sl rest in
      Ok (b ++ c ++ d)
  end.

(** blockMap.c:269-498 blockMapWrite *)
Definition blockMapWrite (bs : Z) (m : list item) : res (list Z) :=
  let* a := wVar 0 in let* b := writeRefs bs [] 0 (runs iRef m) in Ok (a ++ b).

(** * Reading *)

(** io/read.c:354-409 ioReadVarIntU64: the loop is that of cvtUInt64FromVarInt128 (ConvertModel), but the data may end *)
Definition rVar (buf : list Z) : res (Z * list Z) :=
  match fromVarInt buf with Ok r => Ok r | _ => if (length buf <? varIntMax)%nat then Err EFileRead else Err EFormat end.

(** blockMap.c:230-242: checksums of the blocks of a super block.  [sum] is what is in the item from before. *)
Fixpoint readSums (n : nat) (cs : nat) (it : item) (buf : list Z) : list item * list Z * list Z :=
  match n with
  | O => ([], iSum it, buf)
  | S n' =>
      let got := firstn cs buf in
      let it1 := mkItem (iRef it) (iSbs it) (iBundle it) (iOff it) (iSize it) (iBlock it) (got ++ skipn (length got) (iSum it)) in
      let '(l, sum, rest) := readSums n' cs (mkItem (iRef it) (iSbs it) (iBundle it) (iOff it) (iSize it) (u64 (iBlock it + 1)) (iSum it1)) (skipn cs buf) in
      (it1 :: l, sum, rest)
  end.

(** blockMap.c:163-254: the super blocks of a reference.  [it] is blockMapItem. *)
Fixpoint readSbs (fuel : nat) (bs : Z) (cs : nat) (refEnc : Z) (rd : refData) (it : item) (sizeLast : Z) (cont first : bool) (buf : list Z)
  : res (list item * refData * Z * list Z) :=
  match fuel with
  | O => UB
  | S fuel' =>
      let* (sbEnc, it1, rd1, buf1) :=
        if cont then Ok (Z.lor (bit (Z.testbit refEnc 2) 1) 4, it, rd, buf)
        else
          let* (e, b) := rVar buf in
          let size := if sizeLast =? 0 then Z.shiftr e 3 else u64 (unZigZag64 (Z.shiftr e 3) + sizeLast) in
          let* (sbs, rdsbs, b') :=
            if Z.testbit e 1 then
              let* (x, b2) := rVar b in
              let s := u64 (Z.shiftr x 1 * bs) in
              let* (s', b3) := if Z.testbit x 0 then let* (y, b4) := rVar b2 in Ok (u64 (s + y), b4) else Ok (s, b2) in
              Ok (s', s', b3)
            else Ok (iSbs it, rdSbs rd, b) in
          let it' := mkItem (iRef it) sbs (iBundle it) (iOff it) size (iBlock it) (iSum it) in
          Ok (e, it', mkRef (rdRef rd) rdsbs (rdBundle rd) (if first then iOff it else u64 (rdOff rd + u64 sizeLast)) size 0, b') in
      let sizeLast' := i64 (iSize it1) in
      let* (total, block, buf2) :=
        if Z.testbit sbEnc 2 then
          let* (x, b) := rVar buf1 in
          let* (block, b') := if Z.testbit x 0 then let* (y, b2) := rVar b in Ok (u64 (rdBlock rd1 + y), b2) else Ok (rdBlock rd1, b) in
          Ok (u64 (Z.shiftr x 1 + 1), block, b')
        else Ok (sbBlocks bs (iSbs it1), rdBlock rd1, buf1) in
      let '(l, sum, buf3) := readSums (Z.to_nat total) cs (mkItem (iRef it1) (iSbs it1) (iBundle it1) (iOff it1) (iSize it1) block (iSum it1)) buf2 in
      let rd2 := mkRef (rdRef rd1) (rdSbs rd1) (rdBundle rd1) (rdOff rd1) (rdSize rd1) (u64 (block + total)) in
      let it2 := mkItem (iRef it1) (iSbs it1) (iBundle it1) (u64 (iOff it1 + iSize it1)) (iSize it1) block sum in
      if Z.testbit sbEnc 0 then Ok (l, rd2, sizeLast', buf3)
      else let* (l', rd', sl, buf') := readSbs fuel' bs cs refEnc rd2 it2 sizeLast' false false buf3 in Ok (l ++ l', rd', sl, buf')
  end.

(** blockMap.c:103-260: the references *)
Fixpoint readRefs (fuel : nat) (bs : Z) (cs : nat) (refs : list refData) (sizeLast : Z) (buf : list Z) : res (list item * list Z) :=
  match fuel with
  | O => UB
  | S fuel' =>
      let* (e, b) := rVar buf in
      let ref := Z.shiftr e 3 mod two32 in
      let zero := repeat 0 cs in
      let* (rd, it, cont, b') :=
        match refFind refs ref with
        | None =>
            let* (bundle, b1) := if Z.testbit e 1 then rVar b else Ok (0, b) in
            let* (off, b2) := if Z.testbit e 2 then rVar b1 else Ok (0, b1) in
            Ok (mkRef ref bs bundle off 0 0, mkItem ref bs bundle off 0 0 zero, false, b2)
        | Some rd =>
            if Z.testbit e 1 then Ok (rd, mkItem ref (rdSbs rd) (rdBundle rd) (rdOff rd) (rdSize rd) 0 zero, true, b)
            else
              let* (off, b1) := if Z.testbit e 2 then let* (x, b1) := rVar b in Ok (u64 (rdOff rd + rdSize rd + x), b1) else Ok (u64 (rdOff rd + rdSize rd), b) in
              Ok (mkRef (rdRef rd) (rdSbs rd) (rdBundle rd) off (rdSize rd) (rdBlock rd), mkItem ref (rdSbs rd) (rdBundle rd) off 0 0 zero, false, b1)
        end in
      let* (l, rd', sl, b2) := readSbs (S (length b')) bs cs e rd it sizeLast cont true b' in
      if Z.testbit e 0 then Ok (l, b2)
      else let* (l', b3) := readRefs fuel' bs cs (refSet refs rd') sl b2 in Ok (l ++ l', b3)
  end.

(** blockMap.c:85-266 blockMapNewRead: the map and the unread bytes *)
Definition blockMapRead (bs : Z) (cs : nat) (buf : list Z) : res (list item * list Z) :=
  let* (v, b) := rVar buf in
  if Z.testbit v 0 then Err EFormat else readRefs (S (length b)) bs cs [] 0 b.
