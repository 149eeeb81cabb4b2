(** Model of the variable length integer and zig-zag conversions.  64-bit unsigned values are [Z] in [0, 2^64); every
    operation that C performs modulo 2^64 (or 2^32) is written with the reduction. *)
From Verif Require Import Base.
Open Scope Z_scope.

Definition two64 : Z := 18446744073709551616.
Definition two32 : Z := 4294967296.
Definition two63 : Z := 9223372036854775808.
Definition two31 : Z := 2147483648.
Definition isU64 (v : Z) : Prop := 0 <= v < two64.

(** convert.h CVT_VARINT128_BUFFER_SIZE (maximum number of bytes of an encoding). *)
Definition varIntMax : nat := 10.

(** convert.c:825-859 cvtUInt64ToVarInt128: emit low 7 bits with the continuation bit while the value is >= 0x80, then the
    last byte.  [fuel] bounds the loop by the buffer size; running out of buffer is the ASSERT in the C code. *)
Fixpoint varIntWrite (fuel : nat) (value : Z) : res (list Z) :=
  match fuel with
  | O => Err EAssert
  | S fuel' =>
      if 128 <=? value
      then let* rest := varIntWrite fuel' (Z.shiftr value 7) in
           Ok (Z.lor (value mod 256) 128 :: rest)
      else Ok [value]
  end.
Definition toVarInt (value : Z) : res (list Z) := varIntWrite varIntMax value.

(** convert.c:862-901 cvtUInt64FromVarInt128 on the remaining part of the buffer.  [idx] is bufferIdx, [acc] is result.
    Result: the value and the remaining bytes.  [left] counts loop iterations left (CVT_VARINT128_BUFFER_SIZE). *)
Fixpoint varIntRead (left : nat) (idx : Z) (acc : Z) (buf : list Z) : res (Z * list Z) :=
  match left with
  | O => Err EFormat                    (* unterminated varint-128 integer *)
  | S left' =>
      match buf with
      | [] => Err EFormat               (* buffer position is beyond buffer size *)
      | byte :: rest =>
          let acc' := Z.lor acc (Z.shiftl (Z.land byte 127) (7 * idx) mod two64) in
          if byte <? 128 then Ok (acc', rest) else varIntRead left' (idx + 1) acc' rest
      end
  end.
Definition fromVarInt (buf : list Z) : res (Z * list Z) := varIntRead varIntMax 0 0 buf.

(** Value of a C signed 64/32 bit integer from its bit pattern, and back. *)
Definition toS (m : Z) (u : Z) : Z := if u <? m / 2 then u else u - m.
Definition toU (m : Z) (s : Z) : Z := s mod m.

(** convert.h:88-92 cvtInt64ToZigZag: ((uint64_t)value << 1) ^ (uint64_t)(value >> 63) (arithmetic shift). *)
Definition zigZag64 (v : Z) : Z := Z.lxor (toU two64 (Z.shiftl (toU two64 v) 1)) (toU two64 (Z.shiftr v 63)).
(** convert.h:94-98 cvtInt64FromZigZag: (int64_t)((value >> 1) ^ (~(value & 1) + 1)). *)
Definition unZigZag64 (u : Z) : Z :=
  toS two64 (Z.lxor (Z.shiftr u 1) (toU two64 (toU two64 (Z.lnot (Z.land u 1)) + 1))).
(** convert.h:76-80 cvtInt32ToZigZag. *)
Definition zigZag32 (v : Z) : Z := Z.lxor (toU two32 (Z.shiftl (toU two32 v) 1)) (toU two32 (Z.shiftr v 31)).
(** convert.h:82-86 cvtInt32FromZigZag. *)
Definition unZigZag32 (u : Z) : Z :=
  toS two32 (Z.lxor (Z.shiftr u 1) (toU two32 (toU two32 (Z.lnot (Z.land u 1)) + 1))).
