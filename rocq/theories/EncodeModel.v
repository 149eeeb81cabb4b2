(** Model of src/common/encode.c: binary to text encodings and back.

    Characters and bytes are [Z].  C strings are lists of non-zero bytes (the terminating zero is not represented).
    Reading a character as C [char] and converting it to [int] is [charToInt], parameterised by the signedness of [char]
    (implementation defined in C).  A table read outside [0,256) is [UB]. *)
From Verif Require Import Base.
Open Scope Z_scope.

(** encode.c:21 encodeBase64Lookup: "A-Za-z0-9+/" as character codes. *)
Definition b64Alphabet : list Z :=
  map Z.of_nat (seq 65 26) ++ map Z.of_nat (seq 97 26) ++ map Z.of_nat (seq 48 10) ++ [43; 47].
(** encode.c:224 encodeBase64LookupUrl: "A-Za-z0-9-_". *)
Definition b64UrlAlphabet : list Z :=
  map Z.of_nat (seq 65 26) ++ map Z.of_nat (seq 97 26) ++ map Z.of_nat (seq 48 10) ++ [45; 95].

(** Array read of the 64 entry lookup tables.  The index is always < 64 by construction of the callers; -1 marks an
    (impossible) out of range read and is not a character. *)
Definition b64Char (alphabet : list Z) (idx : Z) : Z := nth (Z.to_nat idx) alphabet (-1).

Definition PAD : Z := 61. (* 0x3d *)

(** encode.c:24-79 encodeToStrBase64: the loop consumes three bytes per iteration. *)
Fixpoint encodeBase64 (src : list Z) : list Z :=
  match src with
  | [] => []
  | [a] =>
      [b64Char b64Alphabet (Z.shiftr a 2);
       b64Char b64Alphabet (Z.shiftl (Z.land a 3) 4); PAD; PAD]
  | [a; b] =>
      [b64Char b64Alphabet (Z.shiftr a 2);
       b64Char b64Alphabet (Z.lor (Z.shiftl (Z.land a 3) 4) (Z.shiftr (Z.land b 240) 4));
       b64Char b64Alphabet (Z.shiftl (Z.land b 15) 2); PAD]
  | a :: b :: c :: rest =>
      b64Char b64Alphabet (Z.shiftr a 2)
      :: b64Char b64Alphabet (Z.lor (Z.shiftl (Z.land a 3) 4) (Z.shiftr (Z.land b 240) 4))
      :: b64Char b64Alphabet (Z.lor (Z.shiftl (Z.land b 15) 2) (Z.shiftr (Z.land c 192) 6))
      :: b64Char b64Alphabet (Z.land c 63)
      :: encodeBase64 rest
  end.

(** encode.c:83-91 encodeToStrSizeBase64. *)
Definition encodeSizeBase64 (n : Z) : Z := (n + 2) / 3 * 4.

(** encode.c:227-277 encodeToStrBase64Url: as above with the URL alphabet and no padding. *)
Fixpoint encodeBase64Url (src : list Z) : list Z :=
  match src with
  | [] => []
  | [a] =>
      [b64Char b64UrlAlphabet (Z.shiftr a 2);
       b64Char b64UrlAlphabet (Z.shiftl (Z.land a 3) 4)]
  | [a; b] =>
      [b64Char b64UrlAlphabet (Z.shiftr a 2);
       b64Char b64UrlAlphabet (Z.lor (Z.shiftl (Z.land a 3) 4) (Z.shiftr (Z.land b 240) 4));
       b64Char b64UrlAlphabet (Z.shiftl (Z.land b 15) 2)]
  | a :: b :: c :: rest =>
      b64Char b64UrlAlphabet (Z.shiftr a 2)
      :: b64Char b64UrlAlphabet (Z.lor (Z.shiftl (Z.land a 3) 4) (Z.shiftr (Z.land b 240) 4))
      :: b64Char b64UrlAlphabet (Z.lor (Z.shiftl (Z.land b 15) 2) (Z.shiftr (Z.land c 192) 6))
      :: b64Char b64UrlAlphabet (Z.land c 63)
      :: encodeBase64Url rest
  end.

(** encode.c:281-289 encodeToStrSizeBase64Url. *)
Definition encodeSizeBase64Url (n : Z) : Z := n / 3 * 4 + (if n mod 3 =? 0 then 0 else n mod 3 + 1).

(** encode.c:94-112 decodeBase64Lookup, transcribed row by row. *)
Definition neg16 : list Z := [-1;-1;-1;-1;-1;-1;-1;-1;-1;-1;-1;-1;-1;-1;-1;-1].
Definition decodeBase64Lookup : list Z :=
  neg16 ++ neg16 ++
  [-1;-1;-1;-1;-1;-1;-1;-1;-1;-1;-1;62;-1;-1;-1;63] ++
  [52;53;54;55;56;57;58;59;60;61;-1;-1;-1;-1;-1;-1] ++
  [-1; 0; 1; 2; 3; 4; 5; 6; 7; 8; 9;10;11;12;13;14] ++
  [15;16;17;18;19;20;21;22;23;24;25;-1;-1;-1;-1;-1] ++
  [-1;26;27;28;29;30;31;32;33;34;35;36;37;38;39;40] ++
  [41;42;43;44;45;46;47;48;49;50;51;-1;-1;-1;-1;-1] ++
  neg16 ++ neg16 ++ neg16 ++ neg16 ++ neg16 ++ neg16 ++ neg16 ++ neg16.

(** encode.c:342-360 decodeHexLookup, transcribed row by row. *)
Definition decodeHexLookup : list Z :=
  neg16 ++ neg16 ++ neg16 ++
  [ 0; 1; 2; 3; 4; 5; 6; 7; 8; 9;-1;-1;-1;-1;-1;-1] ++
  [-1;10;11;12;13;14;15;-1;-1;-1;-1;-1;-1;-1;-1;-1] ++
  neg16 ++
  [-1;10;11;12;13;14;15;-1;-1;-1;-1;-1;-1;-1;-1;-1] ++
  neg16 ++
  neg16 ++ neg16 ++ neg16 ++ neg16 ++ neg16 ++ neg16 ++ neg16 ++ neg16.

(** [(int)source[idx]] where source is [const char *]: implementation defined signedness. *)
Definition charToInt (signedChar : bool) (c : Z) : Z := if signedChar && (128 <=? c) then c - 256 else c.

(** Array read [table[(int)source[idx]]] as it appears in the validators (encode.c:144, 379). *)
Definition lookupChar (signedChar : bool) (table : list Z) (c : Z) : res Z :=
  let idx := charToInt signedChar c in
  if (0 <=? idx) && (idx <? 256) then Ok (nth (Z.to_nat idx) table (-1)) else UB.

(** encode.c:128-147, loop of decodeToBinValidateBase64; [src] is the part not yet visited, [idx] its position. *)
Fixpoint validateBase64Loop (sc : bool) (size : Z) (lastChar : Z) (idx : Z) (src : list Z) : res unit :=
  match src with
  | [] => Ok tt
  | c :: rest =>
      if c =? PAD then
        if idx <? size - 2 then Err EFormat
        else if (idx =? size - 2) && negb (lastChar =? PAD) then Err EFormat
        else validateBase64Loop sc size lastChar (idx + 1) rest
      else
        let* v := lookupChar sc decodeBase64Lookup c in
        if v =? -1 then Err EFormat else validateBase64Loop sc size lastChar (idx + 1) rest
  end.

(** encode.c:115-150 decodeToBinValidateBase64. *)
Definition validateBase64 (sc : bool) (src : list Z) : res unit :=
  let size := Z.of_nat (length src) in
  if negb (size mod 4 =? 0) then Err EFormat
  else validateBase64Loop sc size (last src 0) 0 src.

(** Lookup used by the decoding loops after validation succeeded. *)
Definition dec (table : list Z) (c : Z) : Z := nth (Z.to_nat c) table (-1).
Definition u8 (x : Z) : Z := x mod 256.

(** encode.c:167-188, loop of decodeToBinBase64: four characters per iteration.  A trailing group of fewer than four
    characters is impossible after validation. *)
Fixpoint decodeBase64Loop (src : list Z) : list Z :=
  match src with
  | c0 :: c1 :: c2 :: c3 :: rest =>
      let d := dec decodeBase64Lookup in
      [u8 (Z.lor (Z.shiftl (d c0) 2) (Z.shiftr (d c1) 4))]
      ++ (if c2 =? PAD then [] else [u8 (Z.lor (Z.shiftl (d c1) 4) (Z.shiftr (d c2) 2))])
      ++ (if c3 =? PAD then [] else [u8 (Z.lor (Z.land (Z.shiftl (d c2) 6) 192) (d c3))])
      ++ decodeBase64Loop rest
  | _ => []
  end.

(** encode.c:154-191 decodeToBinBase64. *)
Definition decodeBase64 (sc : bool) (src : list Z) : res (list Z) :=
  let* _ := validateBase64 sc src in Ok (decodeBase64Loop src).

(** encode.c:195-219 decodeToBinSizeBase64. *)
Definition decodeSizeBase64 (sc : bool) (src : list Z) : res Z :=
  let* _ := validateBase64 sc src in
  let size := Z.of_nat (length src) in
  Ok (size / 4 * 3
      - (if negb (size =? 0) && (last src 0 =? PAD)
         then 1 + (if nth (length src - 2) src 0 =? PAD then 1 else 0) else 0)).

(** encode.c:294-302 encodeHexLookup: entry 2b,2b+1 are the two lower case hex digits of b.  The table is represented by the
    digit function instead of a 512 character literal. *)
Definition hexDigit (d : Z) : Z := if d <? 10 then 48 + d else 87 + d.

(** encode.c:305-327 encodeToStrHex. *)
Definition encodeHex (src : list Z) : list Z :=
  flat_map (fun b => [hexDigit (b / 16); hexDigit (b mod 16)]) src.

(** encode.c:331-338 encodeToStrSizeHex. *)
Definition encodeSizeHex (n : Z) : Z := n * 2.

(** encode.c:377-381, loop of decodeToBinValidateHex. *)
Fixpoint validateHexLoop (sc : bool) (src : list Z) : res unit :=
  match src with
  | [] => Ok tt
  | c :: rest =>
      let* v := lookupChar sc decodeHexLookup c in
      if v =? -1 then Err EFormat else validateHexLoop sc rest
  end.

(** encode.c:364-384 decodeToBinValidateHex. *)
Definition validateHex (sc : bool) (src : list Z) : res unit :=
  if negb (Z.of_nat (length src) mod 2 =? 0) then Err EFormat else validateHexLoop sc src.

(** encode.c:401-405, loop of decodeToBinHex. *)
Fixpoint decodeHexLoop (src : list Z) : list Z :=
  match src with
  | c0 :: c1 :: rest =>
      u8 (Z.lor (Z.shiftl (dec decodeHexLookup c0) 4) (dec decodeHexLookup c1)) :: decodeHexLoop rest
  | _ => []
  end.

(** encode.c:388-408 decodeToBinHex. *)
Definition decodeHex (sc : bool) (src : list Z) : res (list Z) :=
  let* _ := validateHex sc src in Ok (decodeHexLoop src).

(** encode.c:412-422 decodeToBinSizeHex. *)
Definition decodeSizeHex (sc : bool) (src : list Z) : res Z :=
  let* _ := validateHex sc src in Ok (Z.of_nat (length src) / 2).
