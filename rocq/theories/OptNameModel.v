(** Names of options and commands.  Models cfgParseCommandId() (src/config/parse.c:405-430), cfgParseOption() (src/config/parse.c:567-803) and
    cfgParseOptionKeyIdxName() (src/config/parse.c:1363-1388).

    The tables of options are arguments here; OptTableModel.v has those of the program.  OptionInvalidError and CommandInvalidError are EOther, messages are left
    out.  isdigit() is the one of the C locale. *)
From Verif Require Import Base Str ConvertModel NumModel ListModel.
Open Scope Z_scope.
Open Scope list_scope.

(** parse.h / config.h: types and sections of options *)
Inductive otype := TBoolean | THash | TInteger | TList | TPath | TSize | TString | TStringId | TTime.
Inductive osection := SecGlobal | SecStanza | SecCommandLine.
(** parse.c:128-150 ParseRuleOption.  The optional rules and the valid commands are in OptResolveModel.v and OptLoadModel.v. *)
Record rule := mkRule {
  rName : str; rType : otype; rSection : osection; rGroup : option nat; rBoolLike : bool; rBeta : bool; rNegate : bool; rReset : bool; rRequired : bool;
  rSecure : bool; rMulti : bool; rDeprecateMatch : bool }.
(** parse.c:288-294 ParseRuleOptionDeprecate *)
Record deprecate := mkDeprecate { dName : str; dId : nat; dIndexed : bool; dUnindexed : bool }.
(** parse.h:93-103 CfgParseOptionResult; not found is None *)
Record optres := mkOptres { oId : nat; oKeyIdx : Z; oNegate : bool; oReset : bool; oDeprecated : bool; oMulti : bool }.

(** "no-" and "reset-" (parse.c:567-568) *)
Definition prefixNegate : str := [110; 111; 45].
Definition prefixReset : str := [114; 101; 115; 101; 116; 45].
Definition nameSizeMax : nat := 64.
Definition keyMax : Z := 256.

Definition isDigit (c : Z) : bool := (48 <=? c) && (c <=? 57).
(** strchr(name, '-'): what is before the first dash, and the rest from the dash on *)
Fixpoint splitDash (s : str) : option (str * str) :=
  match s with
  | [] => None
  | c :: r => if c =? 45 then Some ([], s) else match splitDash r with Some (b, e) => Some (c :: b, e) | None => None end
  end.
(** parse.c:624-633: going back from the dash; the sums are of 32 bits *)
Fixpoint scanKey (back : str) (key mult : Z) : Z * str :=
  match back with
  | c :: r => if isDigit c then scanKey r ((key + (c - 48) * mult mod two32) mod two32) (mult * 10 mod two32) else (key, back)
  | [] => (key, [])
  end.

(** parse.c:617-660: the key index, whether there is one, and the name without it *)
Definition takeKey (name : str) : res (Z * bool * str) :=
  match splitDash name with
  | None => Ok (0, false, name)
  | Some ([], _) => Err EOther
  | Some (before, rest) =>
      let '(key, back) := scanKey (rev before) 0 1 in
      match back with
      | [] => Err EOther
      | _ =>
          if (length back =? length before)%nat then Ok (0, false, name)
          else if (key <? 1) || (keyMax <? key) then Err EOther
          else Ok (key - 1, true, rev back ++ rest)
      end
  end.

(** bsearch() with lstComparatorZ in a table of names *)
Definition searchName (names : list str) (name : str) : res (option nat) :=
  bsearch (length names) cmpStr (map Some names) 0 name 0 (length names).
(** parse.c:675-695, 711-731: the one name that begins with this *)
Fixpoint partials (i : nat) (names : list str) (name : str) : list nat :=
  match names with [] => [] | n :: r => if strBeginsWith n name then i :: partials (S i) r name else partials (S i) r name end.
Definition onePartial (names : list str) (name : str) : option nat := match partials 0 names name with [i] => Some i | _ => None end.

Section Names.
Variable rules : list rule.
Variable deps : list deprecate.
Variable groups : list str.

(** parse.c:665-758: the option, and whether the name is a deprecated one *)
Definition findOption (prefixMatch ignoreMissing : bool) (name : str) (indexed : bool) : res (option (nat * bool)) :=
  let* r := searchName (map rName rules) name in
  match r with
  | Some i => Ok (Some (i, false))
  | None =>
      match (if prefixMatch then onePartial (map rName rules) name else None) with
      | Some i => Ok (Some (i, false))
      | None =>
          let* r := searchName (map dName deps) name in
          let r := match r with Some j => Some j | None => if prefixMatch then onePartial (map dName deps) name else None end in
          match r with
          | None => Ok None
          | Some j =>
              match nth_error deps j with
              | None => UB
              | Some d =>
                  if indexed && negb (dIndexed d) then Err EOther
                  else if negb indexed && negb (dUnindexed d) && negb ignoreMissing then Err EOther
                  else Ok (Some (dId d, true))
              end
          end
      end
  end.

(** parse.c:760-802 *)
Definition checkOption (ignoreMissing : bool) (neg rst indexed : bool) (keyIdx : Z) (i : nat) (deprecated : bool) : res optres :=
  match nth_error rules i with
  | None => UB
  | Some r =>
      if neg && negb (rNegate r) then Err EOther
      else if rst && negb (rReset r) then Err EOther
      else
        let deprecated := deprecated || (negb indexed && rDeprecateMatch r) in
        let grouped := match rGroup r with Some _ => true | None => false end in
        if negb deprecated && indexed && negb grouped then Err EOther
        else if negb deprecated && negb indexed && grouped && negb ignoreMissing then Err EOther
        else Ok (mkOptres i keyIdx neg rst deprecated (rMulti r))
  end.

(** parse.c:571-803 cfgParseOption *)
Definition parseOption (prefixMatch ignoreMissing : bool) (candidate : str) : res (option optres) :=
  if (nameSizeMax <? length candidate)%nat then Err EOther
  else
    let neg := strBeginsWith candidate prefixNegate in
    let rst := negb neg && strBeginsWith candidate prefixReset in
    let name := if neg then skipn 3 candidate else if rst then skipn 6 candidate else candidate in
    let* k := takeKey name in
    let '(keyIdx, indexed, name) := k in
    let* f := findOption prefixMatch ignoreMissing name indexed in
    match f with
    | None => Ok None
    | Some (i, deprecated) => let* o := checkOption ignoreMissing neg rst indexed keyIdx i deprecated in Ok (Some o)
    end.

(** parse.c:1363-1388 cfgParseOptionKeyIdxName *)
Definition keyIdxName (i : nat) (keyIdx : Z) : res str :=
  match nth_error rules i with
  | None => UB
  | Some r =>
      match rGroup r with
      | None => Ok (rName r)
      | Some g =>
          match nth_error groups g with
          | None => UB
          | Some gn => Ok (gn ++ cvtUIntToZ (keyIdx + 1) ++ skipn (length gn) (rName r))
          end
      end
  end.

(** strchr(name, ':') *)
Fixpoint beforeColon (s : str) : str := match s with [] => [] | c :: r => if c =? 58 then [] else c :: beforeColon r end.
(** parse.c:405-430 cfgParseCommandId: strncmp() over the length of what was given *)
Fixpoint firstBegins (i : nat) (names : list str) (name : str) : option nat :=
  match names with [] => None | n :: r => if strBeginsWith n name then Some i else firstBegins (S i) r name end.
Definition commandId (commands : list str) (name : str) : res nat :=
  match firstBegins 0 commands (beforeColon name) with Some i => Ok i | None => Err EOther end.
End Names.
