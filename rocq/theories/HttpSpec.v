(** What an HTTP response is, as text, without the functions that read it. *)
From Verif Require Import Base Str NumSpec SpoolSpec RegNameModel HttpModel.
From Coq Require Import String List.
Open Scope Z_scope. Open Scope list_scope.

(** A line that can be read: no linefeed in it, and with its linefeed not longer than the buffer. *)
Definition lineOk (max : nat) (l : str) : Prop := ~ In 10 l /\ (length l < max)%nat.
Definition blank (l : str) : Prop := Forall white l.
(** No white space at the ends. *)
Definition trimmed (t : str) : Prop := (forall c r, t = c :: r -> ~ white c) /\ (forall c r, t = r ++ [c] -> ~ white c).
(** [t] is what C sees of [s]. *)
Definition zText (s t : str) : Prop := ~ In 0 t /\ (s = t \/ exists x, s = t ++ 0 :: x).

(** The header of a chunk of [n] bytes: a hexadecimal number with white space around, and an extension after a semicolon; or a zero byte right after
    the number and anything after that. *)
Definition sizeLine (h : str) (n : Z) : Prop :=
  0 <= n < 2 ^ 64 /\ exists a num b e, h = a ++ num ++ b ++ e /\ blank a /\ blank b /\ unsignedText 16 num n /\
    (e = [] \/ (exists x, e = 59 :: x) \/ (b = [] /\ exists x, e = 0 :: x)).

(** Lines up to the first blank one. *)
Inductive trailing (max : nat) : str -> str -> Prop :=
| tr_blank l rest : lineOk max l -> blank l -> trailing max (l ++ 10 :: rest) rest
| tr_more l s rest : lineOk max l -> ~ blank l -> trailing max s rest -> trailing max (l ++ 10 :: s) rest.
(** [chunks s c rest]: [s] is content [c] in chunks, followed by [rest].  The line after the data of a chunk is not looked at. *)
Inductive chunks (max : nat) : str -> str -> str -> Prop :=
| ch_end h s rest : lineOk max h -> sizeLine h 0 -> trailing max s rest -> chunks max (h ++ 10 :: s) [] rest
| ch_more h n d t s c rest : lineOk max h -> sizeLine h n -> 0 < n -> Z.of_nat (length d) = n -> lineOk max t -> chunks max s c rest ->
    chunks max (h ++ 10 :: d ++ t ++ 10 :: s) (d ++ c) rest.

(** Content up to the end of the connection. *)
Definition toEnd (r : resp) : Prop := rClose r = true /\ rChunked r = false /\ rSize r = 0.
(** [left r s c rest]: with the server about to send [s], the rest of the content is [c] and [rest] follows the response. *)
Inductive left (max : nat) (r : resp) : str -> str -> str -> Prop :=
| l_done s : rEof r = true -> left max r s [] s
| l_end s : rEof r = false -> toEnd r -> left max r s s []
| l_size c rest : rEof r = false -> ~ toEnd r -> rChunked r = false -> 0 < rRemaining r -> Z.of_nat (length c) = rRemaining r ->
    left max r (c ++ rest) c rest
| l_chunks s c rest : rEof r = false -> rChunked r = true -> rRemaining r = 0 -> chunks max s c rest -> left max r s c rest
| l_chunk d t s c rest : rEof r = false -> rChunked r = true -> 0 < rRemaining r -> Z.of_nat (length d) = rRemaining r -> lineOk max t ->
    chunks max s c rest -> left max r (d ++ t ++ 10 :: s) (d ++ c) rest.
(** Responses as httpResponseNew() makes them and reading keeps them. *)
Definition wfResp (r : resp) : Prop :=
  0 <= rRemaining r /\ (rEof r = false -> rChunked r = false -> toEnd r \/ (rSize r <> 0 /\ 0 < rRemaining r)).

(** The status line. *)
Definition statusLine (max : nat) (s : str) (code : Z) (reason : str) (v10 : bool) (rest : str) : Prop :=
  exists c num, s = (if v10 then txt "HTTP/1.0" else txt "HTTP/1.1") ++ c :: num ++ 32 :: reason ++ 13 :: 10 :: rest /\
    c <> 10 /\ ~ In 10 reason /\ (15 + length reason <= max)%nat /\ length num = 3%nat /\ unsignedText 10 num code.

(** One header: key in lower case. *)
Definition lowerCase (c : Z) : Z := if (65 <=? c) && (c <=? 90) then c + 32 else c.
Definition headerLine (l k v : str) : Prop :=
  exists a K b d e, l = a ++ K ++ b ++ 58 :: d ++ v ++ e /\ blank a /\ blank b /\ blank d /\ blank e /\ trimmed K /\ trimmed v /\
    ~ In 58 K /\ ~ In 0 K /\ k = map lowerCase K.
Inductive headerText (max : nat) : str -> list (str * str) -> str -> Prop :=
| ht_end l rest : lineOk max l -> blank l -> headerText max (l ++ 10 :: rest) [] rest
| ht_more l k v s hs rest : lineOk max l -> headerLine l k v -> headerText max s hs rest -> headerText max (l ++ 10 :: s) ((k, v) :: hs) rest.
(** What the headers say of the content; [v10] is whether the connection is closed anyway. *)
Definition sizeText (v : str) (n : Z) : Prop := exists t, zText v t /\ unsignedText 10 t n /\ 0 <= n < 2 ^ 64.
Definition framing (hs : list (str * str)) (v10 : bool) (r : resp) : Prop :=
  (rChunked r = true <-> exists v, In (txt "transfer-encoding", v) hs) /\
  (forall v, In (txt "transfer-encoding", v) hs -> map lowerCase v = txt "chunked") /\
  (rSizeSet r = true <-> exists v, In (txt "content-length", v) hs) /\
  (forall v, In (txt "content-length", v) hs -> exists n, sizeText v n) /\
  ((rSize r = 0 /\ forall v, ~ In (txt "content-length", v) hs) \/
   (exists hs1 v hs2, hs = hs1 ++ (txt "content-length", v) :: hs2 /\ (forall w, ~ In (txt "content-length", w) hs2) /\ sizeText v (rSize r))) /\
  rRemaining r = rSize r /\
  (rClose r = true <-> v10 = true \/ exists v, In (txt "connection", v) hs /\ map lowerCase v = txt "close").
