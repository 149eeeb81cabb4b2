(** Reading options from the command line, the environment and the configuration file.  Models the phases 1 to 3 of cfgParse() (src/config/parse.c:1735-2260), parseOptionIdxValue()
    (src/config/parse.c:325-371), cfgParseCommandRoleEnum() (src/config/parse.c:454-472) and the store of ini (src/common/ini.c:52-85, 230-340).

    The rules for commands and roles, the tables of options and what the configuration files contain (cfgFileLoad()) are arguments.  Warnings, messages, log and lock settings are left
    out.  All errors for invalid options, commands and parameters are EOther. *)
From Coq Require Import String.
From Verif Require Import Base Str LsnModel RegNameModel OptNameModel.
Open Scope Z_scope.
Open Scope list_scope.

(** config.h:30-36 ConfigCommandRole *)
Inductive role := RoleMain | RoleAsync | RoleLocal | RoleRemote.
(** parse.c:304-311 ParseOptionValue; a value that was not found is not in the table.  The source is the command line (cfgSourceParam) or the configuration (cfgSourceConfig); valueList NULL is []. *)
Record pvalue := mkPvalue { pvNegate : bool; pvReset : bool; pvParam : bool; pvValues : list str }.
(** ParseOption[CFG_OPTION_TOTAL] with its index lists: the values found by option id and key index *)
Definition table : Type := list ((nat * Z) * pvalue).
Fixpoint getOpt (t : table) (i : nat) (k : Z) : option pvalue :=
  match t with [] => None | ((i', k'), v) :: r => if (i' =? i)%nat && (k' =? k) then Some v else getOpt r i k end.
Fixpoint setOpt (t : table) (i : nat) (k : Z) (v : pvalue) : table :=
  match t with [] => [((i, k), v)] | ((i', k'), v') :: r => if (i' =? i)%nat && (k' =? k) then ((i, k), v) :: r else ((i', k'), v') :: setOpt r i k v end.

(** strchr(s, '=') *)
Fixpoint splitEqual (s : str) : str * option str :=
  match s with [] => ([], None) | c :: r => if c =? 61 then ([], Some r) else let '(n, v) := splitEqual r in (c :: n, v) end.
(** strchr(s, ':') + 1 *)
Fixpoint afterColon (s : str) : option str := match s with [] => None | c :: r => if c =? 58 then Some r else afterColon r end.

Definition yes : str := [121].
Definition no : str := [110].
Definition isBool (r : rule) : bool := match rType r with TBoolean => true | _ => false end.

(** parse.c:454-472 *)
Definition commandRole (s : str) : res role :=
  if strEqb s (txt "async") then Ok RoleAsync else if strEqb s (txt "local") then Ok RoleLocal else if strEqb s (txt "remote") then Ok RoleRemote else Err EOther.

(** parse.c:1844-1918: adding an option of the command line *)
Definition addOption (t : table) (i : nat) (k : Z) (neg rst multi : bool) (arg : option str) : res table :=
  let values := match arg with Some a => [a] | None => [] end in
  match getOpt t i k with
  | None => Ok (setOpt t i k (mkPvalue neg rst true values))
  | Some v =>
      if pvNegate v && neg then Err EOther
      else if pvReset v && rst then Err EOther
      else if (pvReset v && neg) || (pvNegate v && rst) then Err EOther
      else if negb (Bool.eqb (pvNegate v) neg) then Err EOther
      else if negb (Bool.eqb (pvReset v) rst) then Err EOther
      else match arg with
           | Some a => if multi then Ok (setOpt t i k (mkPvalue (pvNegate v) (pvReset v) (pvParam v) (pvValues v ++ [a]))) else Err EOther
           | None => Err EOther
           end
  end.

(** The command as it is on the command line *)
Record cmdst := mkCmdst { cCommand : nat; cRole : role; cSet : bool; cHelpSet : bool; cHelp : bool; cParams : list str }.

Section Load.
Variable rules : list rule.
Variable deps : list deprecate.
Variable commands : list str.
(** The ids of the commands help and version and of the option stanza *)
Variable helpId versionId stanzaId : nat.
(** parseRuleCommand[].commandRoleValid, parseRuleCommand[].parameterAllowed, cfgParseOptionValid() *)
Variable roleValid : nat -> role -> bool.
Variable paramAllowed : nat -> bool.
Variable optionValid : nat -> role -> nat -> bool.

(** parse.c:1778-1842 after the argument of the option is known: [neg] and [arg] as they are then *)
Definition takeOption (t : table) (r : rule) (o : optres) (neg : bool) (arg : option str) : res table :=
  let like := neg && rBoolLike r in
  let neg := if like then false else neg in
  let arg := if like then Some no else arg in
  if rSecure r then Err EOther
  else addOption t (oId o) (oKeyIdx o) neg (oReset o) (oMulti o) arg.

(** parse.c:1921-1973: the command, or a parameter of the command *)
Definition takeWord (c : cmdst) (arg : str) : res cmdst :=
  if cSet c then Ok (mkCmdst (cCommand c) (cRole c) (cSet c) (cHelpSet c) (cHelp c) (cParams c ++ [arg]))
  else
    let* id := commandId commands arg in
    if (id =? helpId)%nat && negb (cHelpSet c) then Ok (mkCmdst id (cRole c) (cSet c) true (cHelp c) (cParams c))
    else
      let* rl := match afterColon arg with Some s => commandRole s | None => Ok RoleMain end in
      if negb (roleValid id rl) then Err EOther
      else if cHelpSet c && negb match rl with RoleMain => true | _ => false end then Err EOther
      else Ok (mkCmdst id rl true (cHelpSet c) (cHelpSet c) (cParams c)).

(** parse.c:1743-1974: the loop over the arguments *)
Fixpoint takeArgs (args : list str) (c : cmdst) (t : table) : res (cmdst * table) :=
  match args with
  | [] => Ok (c, t)
  | (45 :: 45 :: body) :: rest =>
      let '(name, arg) := splitEqual body in
      let* f := parseOption rules deps true false name in
      match f with
      | None => Err EOther
      | Some o =>
          match nth_error rules (oId o) with
          | None => UB
          | Some r =>
              if negb (oNegate o) && negb (oReset o) then
                if isBool r then
                  match arg with
                  | None => let* t := takeOption t r o false None in takeArgs rest c t
                  | Some a => if strEqb a no then let* t := takeOption t r o true arg in takeArgs rest c t
                              else if strEqb a yes then let* t := takeOption t r o false arg in takeArgs rest c t
                              else Err EOptionInvalidValue
                  end
                else
                  match arg with
                  | Some _ => let* t := takeOption t r o false arg in takeArgs rest c t
                  | None => if rBoolLike r then let* t := takeOption t r o false (Some yes) in takeArgs rest c t
                            else match rest with
                                 | [] => Err EOther
                                 | next :: rest => let* t := takeOption t r o false (Some next) in takeArgs rest c t
                                 end
                  end
              else
                match arg with
                | Some _ => Err EOther
                | None => let* t := takeOption t r o (oNegate o) None in takeArgs rest c t
                end
          end
      end
  | (45 :: _) :: _ => Err EOther
  | arg :: rest => let* c := takeWord c arg in takeArgs rest c t
  end.

(** parse.c:1735-1999: phase 1 *)
Definition loadLine (args : list str) : res (cmdst * table) :=
  let* ct := takeArgs args (mkCmdst helpId RoleMain false false false []) [] in
  let '(c, t) := ct in
  if negb (cSet c) && negb (cHelpSet c) && existsb (fun e => negb (optionValid helpId RoleMain (fst (fst e)))) t then Err EOther
  else if negb (length (cParams c) =? 0)%nat && negb (cHelp c) && negb (paramAllowed (cCommand c)) then Err EOther
  else Ok (c, t).

Definition envPrefix : str := txt "PGBACKREST_".
(** strLower() and strReplaceChr(): letters as in the C locale *)
Definition envChar (c : Z) : Z := if (65 <=? c) && (c <=? 90) then c + 32 else if c =? 95 then 45 else c.

(** parse.c:2066-2092 *)
Definition envValue (r : rule) (o : optres) (value : str) : res pvalue :=
  if isBool r then
    if strEqb value no then Ok (mkPvalue true false false []) else if strEqb value yes then Ok (mkPvalue false false false []) else Err EOptionInvalidValue
  else if oMulti o then Ok (mkPvalue false false false (splitOn 58 value))
  else Ok (mkPvalue false false false [value]).

(** parse.c:2016-2092: phase 2, one variable.  A variable with the prefix and no '=' is undefined behavior: the pointer is only checked with ASSERT(). *)
Definition takeEnv (cmd : nat) (rl : role) (var : str) (t : table) : res table :=
  if negb (strBeginsWith var envPrefix) then Ok t
  else
    let '(k, v) := splitEqual (skipn (length envPrefix) var) in
    match v with
    | None => UB
    | Some value =>
        let* f := parseOption rules deps false false (map envChar k) in
        match f with
        | None => Ok t
        | Some o =>
            if oNegate o || oReset o then Ok t
            else if negb (optionValid cmd rl (oId o)) then Ok t
            else if (length value =? 0)%nat then Err EOptionInvalidValue
            else
              match getOpt t (oId o) (oKeyIdx o) with
              | Some _ => Ok t
              | None =>
                  match nth_error rules (oId o) with
                  | None => UB
                  | Some r => let* v := envValue r o value in Ok (setOpt t (oId o) (oKeyIdx o) v)
                  end
              end
        end
    end.
Fixpoint loadEnv (cmd : nat) (rl : role) (env : list str) (t : table) : res table :=
  match env with [] => Ok t | var :: r => let* t := takeEnv cmd rl var t in loadEnv cmd rl r t end.

(** The lines of the configuration: section, key, value *)
Definition iniLine : Type := (str * str * str)%type.
(** ini.c:52-85 with kvAdd(): the values of a key in a section are all those of its lines *)
Definition iniValues (ini : list iniLine) (section key : str) : list str :=
  map (fun l => snd l) (filter (fun l => strEqb (fst (fst l)) section && strEqb (snd (fst l)) key) ini).
(** ini.c:316-343 iniSectionKeyList: the keys of a section, in the order they are first seen *)
Fixpoint distinct (l seen : list str) : list str :=
  match l with [] => [] | a :: r => if existsb (strEqb a) seen then distinct r seen else a :: distinct r (a :: seen) end.
Definition iniKeys (ini : list iniLine) (section : str) : list str :=
  distinct (map (fun l => snd (fst l)) (filter (fun l => strEqb (fst (fst l)) section) ini)) [].

Definition global : str := txt "global".
Definition isGlobal (section : str) : bool := strEqb section global || strBeginsWith section (global ++ [58]).

(** parse.c:2224-2257 *)
Definition fileValue (r : rule) (o : optres) (values : list str) : res pvalue :=
  match values with
  | [] => Err EFormat
  | [value] =>
      if (length value =? 0)%nat then Err EOptionInvalidValue
      else if isBool r then
        if strEqb value no then Ok (mkPvalue true false false []) else if strEqb value yes then Ok (mkPvalue false false false []) else Err EOptionInvalidValue
      else Ok (mkPvalue false false false [value])
  | _ => if oMulti o then Ok (mkPvalue false false false values) else Err EOther
  end.

(** parse.c:2145-2259: phase 3, one key of a section; [found] are the options already seen in this section *)
Definition takeKeyLine (cmd : nat) (rl : role) (ini : list iniLine) (section key : str) (found : list (nat * Z)) (t : table) : res (list (nat * Z) * table) :=
  let* f := parseOption rules deps false false key in
  match f with
  | None => Ok (found, t)
  | Some o =>
      if oNegate o || oReset o then Ok (found, t)
      else
        match nth_error rules (oId o) with
        | None => UB
        | Some r =>
            match rSection r with
            | SecCommandLine => Ok (found, t)
            | s =>
                if existsb (fun e => (fst e =? oId o)%nat && (snd e =? oKeyIdx o)) found then Err EOther
                else
                  let found := (oId o, oKeyIdx o) :: found in
                  if negb (optionValid cmd rl (oId o)) then Ok (found, t)
                  else if match s with SecStanza => true | _ => false end && isGlobal section then Ok (found, t)
                  else
                    match getOpt t (oId o) (oKeyIdx o) with
                    | Some _ => Ok (found, t)
                    | None => let* v := fileValue r o (iniValues ini section key) in Ok (found, setOpt t (oId o) (oKeyIdx o) v)
                    end
            end
        end
  end.
Fixpoint takeKeys (cmd : nat) (rl : role) (ini : list iniLine) (section : str) (keys : list str) (found : list (nat * Z)) (t : table) : res table :=
  match keys with
  | [] => Ok t
  | k :: r => let* ft := takeKeyLine cmd rl ini section k found t in takeKeys cmd rl ini section r (fst ft) (snd ft)
  end.
Fixpoint takeSections (cmd : nat) (rl : role) (ini : list iniLine) (sections : list str) (t : table) : res table :=
  match sections with
  | [] => Ok t
  | s :: r => let* t := takeKeys cmd rl ini s (iniKeys ini s) [] t in takeSections cmd rl ini r t
  end.

(** parse.c:2119-2138: the sections to read, in order *)
Definition sectionList (cmd : nat) (t : table) : res (list str) :=
  match nth_error commands cmd with
  | None => UB
  | Some name =>
      let* own := match getOpt t stanzaId 0 with
                  | None => Ok []
                  | Some v => match pvValues v with stanza :: _ => Ok [stanza ++ 58 :: name; stanza] | [] => UB end
                  end in
      Ok (own ++ [global ++ 58 :: name; global])
  end.
(** parse.c:2094-2260: phase 3 *)
Definition loadFile (cmd : nat) (rl : role) (ini : list iniLine) (t : table) : res table :=
  let* sections := sectionList cmd t in takeSections cmd rl ini sections t.

(** parse.c:1735-2260: the three phases.  [files] is what the configuration files contain, which depends on the options config, config-path and config-include-path. *)
Definition load (files : table -> res (list iniLine)) (args env : list str) : res (cmdst * table) :=
  let* ct := loadLine args in
  let '(c, t) := ct in
  if (cCommand c =? helpId)%nat || (cCommand c =? versionId)%nat then Ok (c, t)
  else
    let* t := loadEnv (cCommand c) (cRole c) env t in
    let* ini := files t in
    let* t := loadFile (cCommand c) (cRole c) ini t in
    Ok (c, t).
End Load.
