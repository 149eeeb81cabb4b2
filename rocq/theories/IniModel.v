(** Ini text.  Models src/common/ini.c and the line reader it uses (src/common/io/read.c).

    Simplifications: the text holds no zero bytes; the lines are cut up in advance, which gives the same lines in the same order whatever the
    sizes of the reads; line numbers and messages are left out. *)
From Verif Require Import Base Str JsonModel.
Open Scope Z_scope.

(** read.c:268-351 ioReadLineParam(allowEof) called until ioReadEof(): the lines without their linefeeds; the text after the last linefeed is
    a line if it is not empty. *)
Fixpoint iniLines (s : str) : list str :=
  match s with
  | [] => []
  | c :: r => if c =? 10 then [] :: iniLines r else match iniLines r with [] => [[c]] | l :: ls => (c :: l) :: ls end
  end.
(** read.c:333-335: no linefeed in a full buffer *)
Definition lineRead (bufSize : nat) (line : str) : res str := if (bufSize <=? length line)%nat then Err EFileRead else Ok line.
(** string.c:984-1027 *)
Definition strTrim (s : str) : str := rev (jws (rev (jws s))).

(** ini.c:134-185, strict: [pre] is what is before the current '=', the search goes on only if the rest is not JSON.  The search for the first
    '=' and the retries are one loop; "missing '='" and "invalid JSON value" are both a FormatError. *)
Fixpoint iniSplitStrict (pre s : str) : res (str * str) :=
  match s with
  | [] => Err EFormat
  | c :: r =>
      if c =? 61 then
        match jsonValidate r with
        | Ok _ => Ok (pre, r)
        | Err EJsonFormat => iniSplitStrict (pre ++ [c]) r
        | Err e => Err e
        | UB => UB
        end
      else iniSplitStrict (pre ++ [c]) r
  end.
(** ini.c:134-185, not strict *)
Fixpoint iniSplitPlain (pre s : str) : res (str * str) :=
  match s with
  | [] => Err EFormat
  | c :: r => if c =? 61 then Ok (strTrim pre, strTrim r) else iniSplitPlain (pre ++ [c]) r
  end.
(** ini.c:103-194: one line; the result is the section after it, and a key and value if there is one. *)
Definition iniLine (strict : bool) (section line : str) : res (str * option (str * str)) :=
  let line := if strict then line else strTrim line in
  match line with
  | [] => Ok (section, None)
  | c :: r =>
      if negb strict && (c =? 35) then Ok (section, None)
      else if (c =? 91) && (negb strict || (last line 0 =? 93)) then
        if negb strict && negb (last line 0 =? 93) then Err EFormat
        else match removelast r with [] => Err EFormat | s => Ok (s, None) end
      else
        match section with
        | [] => Err EFormat
        | _ => let* (k, v) := if strict then iniSplitStrict [] line else iniSplitPlain [] line in
               match k with [] => Err EFormat | _ => Ok (section, Some (k, v)) end
        end
  end.
(** ini.c:87-206: the value, the section after it and the lines that are left. *)
Fixpoint iniValueNext (bufSize : nat) (strict : bool) (section : str) (lines : list str) : res (option (str * str) * str * list str) :=
  match lines with
  | [] => Ok (None, section, [])
  | l :: r =>
      let* l := lineRead bufSize l in
      let* (section, kv) := iniLine strict section l in
      match kv with Some p => Ok (Some p, section, r) | None => iniValueNext bufSize strict section r end
  end.
