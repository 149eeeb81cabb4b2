(** Specification vocabulary for the text encodings (RFC 4648), independent of the model's tables and bit operations. *)
From Verif Require Import Base.
Open Scope Z_scope.

(** RFC 4648 table 1: the character of a 6-bit value; [c62], [c63] are the two alphabet dependent characters. *)
Definition rfcChar (c62 c63 v : Z) : Z :=
  if v <? 26 then 65 + v            (* A-Z *)
  else if v <? 52 then 97 + (v - 26) (* a-z *)
  else if v <? 62 then 48 + (v - 52) (* 0-9 *)
  else if v =? 62 then c62 else c63.

(** RFC 4648 section 4: 24-bit groups of three bytes are written as four 6-bit values, a final short group is padded with
    zero bits and, if [pad], completed with '=' (61). *)
Fixpoint rfcBase64 (c62 c63 : Z) (pad : bool) (src : list Z) : list Z :=
  let ch := rfcChar c62 c63 in
  match src with
  | [] => []
  | [a] => let n := a * 65536 in
      [ch (n / 262144 mod 64); ch (n / 4096 mod 64)] ++ (if pad then [61; 61] else [])
  | [a; b] => let n := a * 65536 + b * 256 in
      [ch (n / 262144 mod 64); ch (n / 4096 mod 64); ch (n / 64 mod 64)] ++ (if pad then [61] else [])
  | a :: b :: c :: rest => let n := a * 65536 + b * 256 + c in
      [ch (n / 262144 mod 64); ch (n / 4096 mod 64); ch (n / 64 mod 64); ch (n mod 64)] ++ rfcBase64 c62 c63 pad rest
  end.

(** Character classes. *)
Definition isB64Char (c : Z) : Prop :=
  65 <= c <= 90 \/ 97 <= c <= 122 \/ 48 <= c <= 57 \/ c = 43 \/ c = 47.
Definition isHexChar (c : Z) : Prop := 48 <= c <= 57 \/ 65 <= c <= 70 \/ 97 <= c <= 102.

(** Well formed base64 text: alphabet characters in groups of four, the last group may end in one or two '='. *)
Inductive wfB64 : list Z -> Prop :=
| wf_nil : wfB64 []
| wf_pad2 c0 c1 : isB64Char c0 -> isB64Char c1 -> wfB64 [c0; c1; 61; 61]
| wf_pad1 c0 c1 c2 : isB64Char c0 -> isB64Char c1 -> isB64Char c2 -> wfB64 [c0; c1; c2; 61]
| wf_group c0 c1 c2 c3 s : isB64Char c0 -> isB64Char c1 -> isB64Char c2 -> isB64Char c3 -> wfB64 s ->
    wfB64 (c0 :: c1 :: c2 :: c3 :: s).

Definition wfHex (s : list Z) : Prop := Nat.Even (length s) /\ Forall isHexChar s.

(** Numeric value of a hex digit, either case. *)
Definition hexVal (c : Z) : Z := if c <=? 57 then c - 48 else if c <=? 70 then c - 55 else c - 87.
Fixpoint hexPairs (s : list Z) : list Z :=
  match s with a :: b :: r => (16 * hexVal a + hexVal b) :: hexPairs r | _ => [] end.
