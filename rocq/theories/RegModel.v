(** Regular expressions.  Models src/common/regExp.c:39-187 (regExpNew, regExpMatch, regExpMatchOne, regExpPrefix) and, because every
    claim about an expression needs them, the part of POSIX extended regular expressions that regcomp()/regexec() of the C library
    give to it: alternatives, groups, bracket expressions with ranges, '.', the anchors, '*', '+', '?', intervals and escapes.

    Simplified: characters are their codes and ranges go by code, which is how the C locale and current C libraries order them.
    Constructs that POSIX leaves undefined or that are outside this fragment (a repetition with nothing to repeat or after an anchor,
    classes such as [:alpha:], intervals above 255, back references and letters after a backslash) give [UB], not a guess.  Failures of
    regcomp() give [Err EFormat], as regExpError() does. *)
From Verif Require Import Base Str.
Open Scope Z_scope.

(** * Expressions *)
Inductive re :=
| RNone                                  (* matches nothing *)
| REps                                   (* matches the empty string *)
| RCls (neg : bool) (rs : list (Z * Z))  (* one character in (or not in) the ranges *)
| RBeg                                   (* ^ *)
| REnd                                   (* $ *)
| RCat (a b : re)
| RAlt (a b : re)
| RStar (a : re).

Definition inRanges (rs : list (Z * Z)) (c : Z) : bool := existsb (fun r => (fst r <=? c) && (c <=? snd r)) rs.
Definition inCls (neg : bool) (rs : list (Z * Z)) (c : Z) : bool := xorb neg (inRanges rs c).
Definition rAny : re := RCls true [].
Definition rChr (c : Z) : re := RCls false [(c, c)].

(** * regexec() by derivatives: [beg] and [fin] say whether the position is at the start and at the end of the string *)
Fixpoint nullable (r : re) (beg fin : bool) : bool :=
  match r with
  | RNone | RCls _ _ => false
  | REps | RStar _ => true
  | RBeg => beg
  | REnd => fin
  | RCat a b => nullable a beg fin && nullable b beg fin
  | RAlt a b => nullable a beg fin || nullable b beg fin
  end.

Definition mkCat (a b : re) : re := match a with RNone => RNone | REps => b | _ => RCat a b end.
Definition mkAlt (a b : re) : re := match a, b with RNone, _ => b | _, RNone => a | _, _ => RAlt a b end.

Fixpoint deriv (r : re) (beg : bool) (c : Z) : re :=
  match r with
  | RNone | REps | RBeg | REnd => RNone
  | RCls neg rs => if inCls neg rs c then REps else RNone
  | RCat a b => mkAlt (mkCat (deriv a beg c) b) (if nullable a beg false then deriv b beg c else RNone)
  | RAlt a b => mkAlt (deriv a beg c) (deriv b beg c)
  | RStar a => mkCat (deriv a beg c) (RStar a)
  end.

(** Does the expression match at this position? *)
Fixpoint matchHere (r : re) (beg : bool) (s : str) : bool :=
  match s with
  | [] => nullable r beg true
  | c :: t => nullable r beg false || matchHere (deriv r beg c) false t
  end.
(** Does it match at this position or later? *)
Fixpoint matchFrom (r : re) (beg : bool) (s : str) : bool :=
  matchHere r beg s || match s with [] => false | _ :: t => matchFrom r false t end.
Definition regexec (r : re) (s : str) : bool := matchFrom r true s.

(** * regcomp(): the expression text is read from left to right with a stack of open groups *)
Definition cBar := 124. Definition cOpen := 40. Definition cClose := 41. Definition cStar := 42. Definition cPlus := 43.
Definition cQuest := 63. Definition cBrace := 123. Definition cBraceR := 125. Definition cBrack := 91. Definition cBrackR := 93.
Definition cDot := 46. Definition cCaret := 94. Definition cDollar := 36. Definition cBack := 92. Definition cMinus := 45.
Definition cComma := 44.

(** Items of a bracket expression up to the closing bracket: ranges and the text after it *)
Fixpoint parseItems (s : str) (first : bool) (acc : list (Z * Z)) : res (list (Z * Z) * str) :=
  match s with
  | [] => Err EFormat
  | c :: t =>
    if (c =? cBrackR) && negb first then Ok (rev acc, t)
    else if c =? cBrack then UB
    else match t with
         | m :: d :: t' =>
           if (m =? cMinus) && negb (d =? cBrackR) then
             (if d =? cBrack then UB else if c <=? d then parseItems t' false ((c, d) :: acc) else Err EFormat)
           else parseItems t false ((c, c) :: acc)
         | _ => parseItems t false ((c, c) :: acc)
         end
  end.
Definition parseClass (s : str) : res (re * str) :=
  match s with
  | c :: t => if c =? cCaret then let* (rs, rest) := parseItems t true [] in Ok (RCls true rs, rest)
              else let* (rs, rest) := parseItems s true [] in Ok (RCls false rs, rest)
  | [] => Err EFormat
  end.

(** Decimal number of an interval *)
Definition isDigit (c : Z) : bool := (48 <=? c) && (c <=? 57).
Fixpoint parseNum (s : str) (acc : Z) : Z * str :=
  match s with c :: t => if isDigit c then parseNum t (acc * 10 + (c - 48)) else (acc, s) | [] => (acc, []) end.
(** Interval after the opening brace: least count, most count if any, the text after the closing brace *)
Definition parseBound (s : str) : res (nat * option nat * str) :=
  match s with
  | c :: _ =>
    if isDigit c then
      let '(lo, r) := parseNum s 0 in
      match r with
      | d :: r1 =>
        if d =? cBraceR then (if lo <=? 255 then Ok (Z.to_nat lo, Some (Z.to_nat lo), r1) else UB)
        else if d =? cComma then
          match r1 with
          | e :: r2 =>
            if e =? cBraceR then (if lo <=? 255 then Ok (Z.to_nat lo, None, r2) else UB)
            else if isDigit e then
              let '(hi, r3) := parseNum r1 0 in
              match r3 with
              | f :: r4 => if (f =? cBraceR) && (lo <=? hi) && (hi <=? 255) then Ok (Z.to_nat lo, Some (Z.to_nat hi), r4) else UB
              | [] => UB
              end
            else UB
          | [] => UB
          end
        else UB
      | [] => UB
      end
    else UB
  | [] => UB
  end.

Fixpoint rTimes (r : re) (n : nat) : re := match n with O => REps | S k => RCat r (rTimes r k) end.
Fixpoint rUpTo (r : re) (n : nat) : re := match n with O => REps | S k => RAlt REps (RCat r (rUpTo r k)) end.
Definition rRepeat (r : re) (lo : nat) (hi : option nat) : re :=
  match hi with
  | Some h => RCat (rTimes r lo) (rUpTo r (h - lo))
  | None => RCat (rTimes r lo) (RStar r)
  end.

(** What may follow a backslash: everything but letters, digits and the characters that the C library gives a meaning there *)
Definition escapable (c : Z) : bool :=
  negb (isDigit c || ((65 <=? c) && (c <=? 90)) || ((97 <=? c) && (c <=? 122)) || (c =? 60) || (c =? 62) || (c =? 39) || (c =? 96)).

(** A group being read: alternatives so far and the pieces of the current one, last piece first *)
Definition frame : Type := list re * list re.
Definition seqRe (q : list re) : re := fold_left (fun acc p => RCat p acc) q REps.
Fixpoint altRe (l : list re) : re := match l with [] => RNone | [r] => r | r :: t => RAlt r (altRe t) end.
Definition branches (f : frame) : list re := fst f ++ [seqRe (snd f)].
Definition addPiece (r : re) (f : frame) : frame := (fst f, r :: snd f).
Definition repeatable (r : re) : bool := match r with RBeg | REnd => false | _ => true end.
(** Replace the last piece by its repetition *)
Definition repeatLast (g : re -> re) (f : frame) : res frame :=
  match snd f with
  | r :: q => if repeatable r then Ok (fst f, g r :: q) else UB
  | [] => UB
  end.

Fixpoint parse (fuel : nat) (s : str) (cur : frame) (stack : list frame) : res (list re) :=
  match fuel with
  | O => UB
  | S fuel' =>
    match s with
    | [] => match stack with [] => Ok (branches cur) | _ => Err EFormat end
    | c :: t =>
      if c =? cBar then parse fuel' t (branches cur, []) stack
      else if c =? cOpen then parse fuel' t ([], []) (cur :: stack)
      else if c =? cClose then
        match stack with [] => Err EFormat | f :: st => parse fuel' t (addPiece (altRe (branches cur)) f) st end
      else if c =? cStar then let* cur' := repeatLast RStar cur in parse fuel' t cur' stack
      else if c =? cPlus then let* cur' := repeatLast (fun r => RCat r (RStar r)) cur in parse fuel' t cur' stack
      else if c =? cQuest then let* cur' := repeatLast (fun r => RAlt REps r) cur in parse fuel' t cur' stack
      else if c =? cBrace then
        let* (lo, hi, t') := parseBound t in
        let* cur' := repeatLast (fun r => rRepeat r lo hi) cur in parse fuel' t' cur' stack
      else if c =? cBrack then let* (r, t') := parseClass t in parse fuel' t' (addPiece r cur) stack
      else if c =? cDot then parse fuel' t (addPiece rAny cur) stack
      else if c =? cCaret then parse fuel' t (addPiece RBeg cur) stack
      else if c =? cDollar then parse fuel' t (addPiece REnd cur) stack
      else if c =? cBack then
        match t with
        | e :: t' => if escapable e then parse fuel' t' (addPiece (rChr e) cur) stack else UB
        | [] => Err EFormat
        end
      else parse fuel' t (addPiece (rChr c) cur) stack
    end
  end.
Definition regcomp (e : str) : res (list re) := parse (S (length e)) e ([], []) [].

(** * regExp.c *)
(** regExp.c:64-89 regExpNew: compile with REG_EXTENDED *)
Definition regExpNew (e : str) : res re := let* l := regcomp e in Ok (altRe l).
(** regExp.c:92-111 regExpMatch *)
Definition regExpMatch (r : re) (s : str) : bool := regexec r s.
(** regExp.c:114-134 regExpMatchOne *)
Definition regExpMatchOne (e s : str) : res bool := let* r := regExpNew e in Ok (regExpMatch r s).

(** regExp.c:158-161 the characters that end the prefix: . ^ $ * + - ? ( [ { space | \ *)
Definition endsPrefix (c : Z) : bool :=
  (c =? cDot) || (c =? cCaret) || (c =? cDollar) || (c =? cStar) || (c =? cPlus) || (c =? cMinus) || (c =? cQuest) || (c =? cOpen) ||
  (c =? cBrack) || (c =? cBrace) || (c =? 32) || (c =? cBar) || (c =? cBack).
(** regExp.c:153-165 the characters before the first of these, and the rest *)
Fixpoint prefixScan (s : str) : str * str :=
  match s with
  | c :: t => if endsPrefix c then ([], s) else let '(p, r) := prefixScan t in (c :: p, r)
  | [] => ([], [])
  end.
(** regExp.c:171-178 another begin anchor in the rest; [prev] is the character before *)
Fixpoint anchorLater (prev : Z) (s : str) : bool :=
  match s with
  | c :: t => (c =? cCaret) && negb (prev =? cBrack) && negb (prev =? cBack) || anchorLater c t
  | [] => false
  end.
(** regExp.c:137-187 regExpPrefix *)
Definition regExpPrefix (e : str) : option str :=
  match e with
  | c :: t =>
    if c =? cCaret then
      let '(p, r) := prefixScan t in
      match p with
      | [] => None
      | _ => if anchorLater (last p 0) r then None else Some p
      end
    else None
  | [] => None
  end.
