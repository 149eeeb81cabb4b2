(** Specification of varint-128 and zig-zag. *)
From Verif Require Import Base.
Open Scope Z_scope.

(** A varint-128 text is a sequence of bytes with the high bit set followed by one without; its value is the little endian
    base 128 number formed by the low seven bits. *)
Fixpoint base128 (digits : list Z) : Z :=
  match digits with [] => 0 | d :: r => d mod 128 + 128 * base128 r end.
Definition varIntText (t : list Z) : Prop :=
  exists pre l, t = pre ++ [l] /\ Forall (fun b => 128 <= b < 256) pre /\ 0 <= l < 128.

(** Zig-zag numbering of the integers: 0, -1, 1, -2, 2, ... *)
Definition zz (v : Z) : Z := if 0 <=? v then 2 * v else -2 * v - 1.
Definition unzz (u : Z) : Z := if Z.even u then u / 2 else - (u + 1) / 2.
