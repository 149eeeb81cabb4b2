(** Escapes, queries and dates as text, without the functions. *)
From Verif Require Import Base Str NumSpec RegNameModel HttpSpec.
From Coq Require Import String List.
Open Scope Z_scope. Open Scope list_scope.

Definition byte (c : Z) : Prop := 0 <= c < 256.
(** Characters that mean nothing in a URI (RFC 3986, 2.3). *)
Definition unreserved (c : Z) : Prop := 65 <= c <= 90 \/ 97 <= c <= 122 \/ 48 <= c <= 57 \/ In c (txt "-._~").
(** [decoded t s]: [t] with its escapes replaced is [s].  An escape is a percent sign and two characters that are a hexadecimal number for C. *)
Inductive decoded : str -> str -> Prop :=
| de_nil : decoded [] []
| de_char c t s : c <> 37 -> decoded t s -> decoded (c :: t) (c :: s)
| de_esc a b n v t s : zText [a; b] n -> unsignedText 16 n v -> decoded t s -> decoded (37 :: a :: b :: t) (v :: s).
(** [escaped path s t]: the one way to write [s]. *)
Inductive escaped (path : bool) : str -> str -> Prop :=
| es_nil : escaped path [] []
| es_char c s t : unreserved c \/ (path = true /\ c = 47) -> escaped path s t -> escaped path (c :: s) (c :: t)
| es_byte c h l s t : ~ (unreserved c \/ (path = true /\ c = 47)) -> In h (txt "0123456789ABCDEF") -> In l (txt "0123456789ABCDEF") -> digitsIs 16 [h; l] c ->
    escaped path s t -> escaped path (c :: s) (37 :: h :: l :: t).

(** The text of a query: keys and values, each not decoded. *)
Definition plain (s : str) : Prop := ~ In 38 s /\ ~ In 61 s.
Inductive pairsText : str -> list (str * str) -> Prop :=
| pt_one k v : plain k -> plain v -> pairsText (k ++ 61 :: v) [(k, v)]
| pt_more k v s l : plain k -> plain v -> pairsText s l -> pairsText (k ++ 61 :: v ++ 38 :: s) ((k, v) :: l).
(** With or without a question mark before; C sees no more than what is before a zero byte. *)
Definition queryText (s : str) (l : list (str * str)) : Prop :=
  exists u t, (s = 63 :: u \/ ((forall x, s <> 63 :: x) /\ u = s)) /\ zText u t /\ pairsText t l.
Definition decodedPair (t q : str * str) : Prop := decoded (fst t) (fst q) /\ decoded (snd t) (snd q).

(** Names in dates (RFC 7231, 7.1.1.1), and numbers with a fixed count of digits. *)
Definition monthName (m : Z) (t : str) : Prop :=
  In (m, t) [(1, txt "Jan"); (2, txt "Feb"); (3, txt "Mar"); (4, txt "Apr"); (5, txt "May"); (6, txt "Jun"); (7, txt "Jul"); (8, txt "Aug"); (9, txt "Sep"); (10, txt "Oct"); (11, txt "Nov"); (12, txt "Dec")].
Definition weekdayName (w : Z) (t : str) : Prop :=
  In (w, t) [(0, txt "Sun"); (1, txt "Mon"); (2, txt "Tue"); (3, txt "Wed"); (4, txt "Thu"); (5, txt "Fri"); (6, txt "Sat")].
Definition fixedDigits (n : nat) (s : str) (v : Z) : Prop := length s = n /\ digitsIs 10 s v.
