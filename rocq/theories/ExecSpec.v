(** What the claims on command lines of other processes say. *)
From Verif Require Import Base Str RegNameModel ExecModel.
From Coq Require Import String List.
Open Scope Z_scope. Open Scope list_scope.

(** What an option is to be in the other process. *)
Inductive act := AReset (name : str) | ABool (name : str) (b : bool) | ASet (name : str) (v : str).
(** Each act is written as the parser of the command line reads it (parse.c cfgParseArgs: split at the first =, prefixes no- and reset-). *)
Definition strip (p s : str) : option str := if strEqb (firstn (length p) s) p then Some (skipn (length p) s) else None.
Fixpoint cutEq (s : str) : str * option str :=
  match s with [] => ([], None) | c :: r => if c =? 61 then ([], Some r) else let (a, b) := cutEq r in (c :: a, b) end.
Definition readArg (a : str) : option act :=
  match strip (txt "--") a with
  | None => None
  | Some s => match cutEq s with
              | (n, Some v) => Some (ASet n v)
              | (n, None) => match strip (txt "reset-") n with
                             | Some m => Some (AReset m)
                             | None => match strip (txt "no-") n with Some m => Some (ABool m false) | None => Some (ABool n true) end
                             end
              end
  end.
(** Names of options *)
Definition optName (n : str) : Prop := ~ In 61 n /\ strip (txt "reset-") n = None /\ strip (txt "no-") n = None.

(** The value to pass: a replacement first; else what was set here if it does not come from a default, and for a process on the same host (which
    reads the same configuration) just what comes from the command line. *)
Inductive passes (replace : list (str * option value)) (local : bool) (o : eopt) : value -> Prop :=
| passReplace v : In (eName o, Some v) replace -> passes replace local o v
| passNegate : (forall x, ~ In (eName o, x) replace) -> eHere o = true -> eNegate o = true -> (local = false \/ eSource o = SrcParam) -> passes replace local o (VBool false)
| passValue v : (forall x, ~ In (eName o, x) replace) -> eHere o = true -> eNegate o = false -> eValue o = Some v ->
    (local = false /\ eSource o = SrcConfig \/ eSource o = SrcParam) -> passes replace local o v.
(** The acts of a value, in order *)
Definition actsOf (n : str) (v : value) : list act :=
  match v with
  | VBool b => [ABool n b]
  | VKv kv => map (fun p => ASet n (fst p ++ 61 :: snd p)) kv
  | VLst l => map (ASet n) l
  | VOne t => [ASet n t]
  end.
(** An option is not for the other process: not valid there, secure, or the cipher type. *)
Definition barred (o : eopt) : Prop := eValid o = false \/ eSecure o = true \/ eCipher o = true.

(** * The shell (POSIX sh), for lines without operators, expansions, escapes, single quotes, patterns: [None] if there is one. *)
Definition special (c : Z) : bool := existsb (Z.eqb c) (txt "|&;<>()$`\'*?[" ++ [9; 10]).
Definition specialQ (c : Z) : bool := existsb (Z.eqb c) (txt "$`\").
Inductive shState := ShNone | ShWord (w : str) | ShQuote (w : str).
(** [w] is the word so far, in reverse *)
Fixpoint shell (st : shState) (s : str) : option (list str) :=
  match s, st with
  | [], ShNone => Some []
  | [], ShWord w => Some [rev w]
  | [], ShQuote _ => None
  | c :: r, ShQuote w => if c =? 34 then shell (ShWord w) r else if specialQ c then None else shell (ShQuote (c :: w)) r
  | c :: r, ShNone => if c =? 32 then shell ShNone r else if c =? 34 then shell (ShQuote []) r else if special c then None else shell (ShWord [c]) r
  | c :: r, ShWord w =>
      if c =? 32 then match shell ShNone r with Some l => Some (rev w :: l) | None => None end
      else if c =? 34 then shell (ShQuote w) r else if special c then None else shell (ShWord (c :: w)) r
  end.
(** A value that the shell reads as it is: with a space it is quoted, so just quotes, dollars, backticks and backslashes matter. *)
Definition shellSafe (v : str) : Prop :=
  ~ In 34 v /\ (forall c, In c v -> specialQ c = false) /\ (~ In 32 v -> forall c, In c v -> special c = false).
Definition shellName (n : str) : Prop := n <> [] /\ ~ In 34 n /\ ~ In 32 n /\ forall c, In c n -> special c = false.
Fixpoint joinSp (l : list str) : str := match l with [] => [] | [x] => x | x :: r => x ++ 32 :: joinSp r end.

(** What is wanted of an option, as acts. *)
Definition toReset (replace : list (str * option value)) (o : eopt) : Prop :=
  (forall x, ~ In (eName o, x) replace) /\ eHere o = true /\ eReset o = true /\ eNegate o = false /\ (eSource o = SrcDefault \/ eValue o = None).
Inductive wants (replace : list (str * option value)) (local : bool) (o : eopt) : list act -> Prop :=
| wantBarred : barred o -> wants replace local o []
| wantValue v : ~ barred o -> passes replace local o v -> wants replace local o (actsOf (eName o) v)
| wantReset : ~ barred o -> toReset replace o -> wants replace local o [AReset (eName o)]
| wantNone : ~ barred o -> (forall v, ~ passes replace local o v) -> ~ toReset replace o -> wants replace local o [].
