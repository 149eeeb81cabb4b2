(** Where the value of an option comes from *)
From Coq Require Import String.
From Verif Require Import Base Str RegNameModel OptNameModel OptLoadModel.
Open Scope Z_scope.
Open Scope list_scope.

(** * The command line *)
(** An option as given: id, key index, negated, reset, may be given more than once, argument *)
Record given := mkGiven { gId : nat; gKey : Z; gNegate : bool; gReset : bool; gMulti : bool; gArg : option str }.
Inductive word := WOpt (g : given) | WArg (s : str).

(** A bool-like option that is negated is set to n *)
Definition asGiven (o : optres) (r : rule) (neg : bool) (arg : option str) : given :=
  if neg && rBoolLike r then mkGiven (oId o) (oKeyIdx o) false (oReset o) (oMulti o) (Some no) else mkGiven (oId o) (oKeyIdx o) neg (oReset o) (oMulti o) arg.

Section Reads.
Variable rules : list rule.
Variable deps : list deprecate.
(** [name] is an option for the command line, which is not secure *)
Definition lineName (name : str) (o : optres) (r : rule) : Prop :=
  ~ In 61 name /\ parseOption rules deps true false name = Ok (Some o) /\ nth_error rules (oId o) = Some r /\ rSecure r = false.
Definition flagged (o : optres) : Prop := oNegate o = true \/ oReset o = true.
Definition unflagged (o : optres) : Prop := oNegate o = false /\ oReset o = false.

(** How the arguments are read *)
Inductive reads : list str -> list word -> Prop :=
| rdEnd : reads [] []
| rdWord a rest ws : (forall x, a <> 45 :: x) -> reads rest ws -> reads (a :: rest) (WArg a :: ws)
| rdFlag name o r rest ws : lineName name o r -> flagged o -> reads rest ws -> reads ((45 :: 45 :: name) :: rest) (WOpt (asGiven o r (oNegate o) None) :: ws)
| rdBool name o r rest ws : lineName name o r -> unflagged o -> rType r = TBoolean -> reads rest ws -> reads ((45 :: 45 :: name) :: rest) (WOpt (asGiven o r false None) :: ws)
| rdYes name o r rest ws : lineName name o r -> unflagged o -> rType r = TBoolean -> reads rest ws -> reads ((45 :: 45 :: name ++ 61 :: yes) :: rest) (WOpt (asGiven o r false (Some yes)) :: ws)
| rdNo name o r rest ws : lineName name o r -> unflagged o -> rType r = TBoolean -> reads rest ws -> reads ((45 :: 45 :: name ++ 61 :: no) :: rest) (WOpt (asGiven o r true (Some no)) :: ws)
| rdArg name o r a rest ws : lineName name o r -> unflagged o -> rType r <> TBoolean -> reads rest ws -> reads ((45 :: 45 :: name ++ 61 :: a) :: rest) (WOpt (asGiven o r false (Some a)) :: ws)
| rdLike name o r rest ws : lineName name o r -> unflagged o -> rType r <> TBoolean -> rBoolLike r = true -> reads rest ws ->
    reads ((45 :: 45 :: name) :: rest) (WOpt (asGiven o r false (Some yes)) :: ws)
| rdNext name o r a rest ws : lineName name o r -> unflagged o -> rType r <> TBoolean -> rBoolLike r = false -> reads rest ws ->
    reads ((45 :: 45 :: name) :: a :: rest) (WOpt (asGiven o r false (Some a)) :: ws).
End Reads.

Fixpoint wordArgs (ws : list word) : list str := match ws with [] => [] | WArg a :: r => a :: wordArgs r | WOpt _ :: r => wordArgs r end.
Fixpoint wordOpts (ws : list word) : list given := match ws with [] => [] | WOpt g :: r => g :: wordOpts r | WArg _ :: r => wordOpts r end.

(** What is given for one option and key *)
Definition givenFor (gs : list given) (i : nat) (k : Z) : list given := filter (fun g => (gId g =? i)%nat && (gKey g =? k)) gs.
(** An option given more than once is a list, and is neither negated nor reset *)
Definition mayRepeat (gs : list given) : Prop :=
  match gs with
  | [] => True
  | [_] => True
  | g :: rest => gNegate g = false /\ gReset g = false /\ forall h, In h rest -> gNegate h = false /\ gReset h = false /\ gMulti h = true /\ gArg h <> None
  end.
Definition consistent (gs : list given) : Prop := forall i k, mayRepeat (givenFor gs i k).
Definition argList (g : given) : list str := match gArg g with Some a => [a] | None => [] end.
Definition valueGiven (gs : list given) : option pvalue :=
  match gs with [] => None | g :: _ => Some (mkPvalue (gNegate g) (gReset g) true (flat_map argList gs)) end.

(** * The command *)
(** The role is after the first colon *)
Definition roleOf (word : str) (rl : role) : Prop :=
  match rl with
  | RoleMain => ~ In 58 word
  | RoleAsync => exists c, ~ In 58 c /\ word = c ++ txt ":async"
  | RoleLocal => exists c, ~ In 58 c /\ word = c ++ txt ":local"
  | RoleRemote => exists c, ~ In 58 c /\ word = c ++ txt ":remote"
  end.
Inductive commandOf (commands : list str) (helpId : nat) (roleValid : nat -> role -> bool) : list str -> cmdst -> Prop :=
| coNone : commandOf commands helpId roleValid [] (mkCmdst helpId RoleMain false false false [])
| coHelp h : commandId commands h = Ok helpId -> commandOf commands helpId roleValid [h] (mkCmdst helpId RoleMain false true false [])
| coHelpFor h w id params : commandId commands h = Ok helpId -> commandId commands w = Ok id -> roleOf w RoleMain -> roleValid id RoleMain = true ->
    commandOf commands helpId roleValid (h :: w :: params) (mkCmdst id RoleMain true true true params)
| coCommand w id rl params : commandId commands w = Ok id -> id <> helpId -> roleOf w rl -> roleValid id rl = true ->
    commandOf commands helpId roleValid (w :: params) (mkCmdst id rl true false false params).

(** * The environment and the configuration file *)
Section Config.
Variable rules : list rule.
Variable deps : list deprecate.
(** The option that a name means where no prefix is allowed *)
Definition configName (name : str) (i : nat) (k : Z) : Prop :=
  exists o, parseOption rules deps false false name = Ok (Some o) /\ oNegate o = false /\ oReset o = false /\ oId o = i /\ oKeyIdx o = k.
(** PGBACKREST_<name>=<value>, with capital letters and _ for - *)
Definition envNames (var : str) (i : nat) (k : Z) (value : str) : Prop :=
  exists key, var = envPrefix ++ key ++ 61 :: value /\ ~ In 61 key /\ configName (map envChar key) i k.
Definition inEnv (env : list str) (i : nat) (k : Z) : Prop := exists var value, In var env /\ envNames var i k value.
(** The first variable for this option *)
Definition firstEnv (env : list str) (i : nat) (k : Z) (value : str) : Prop :=
  exists before var after, env = before ++ var :: after /\ envNames var i k value /\ ~ inEnv before i k.

(** Values between colons *)
Fixpoint joinColon (l : list str) : str := match l with [] => [] | [a] => a | a :: r => a ++ 58 :: joinColon r end.
Definition plainValue (values : list str) : pvalue := mkPvalue false false false values.
Definition boolValue (value : str) (v : pvalue) : Prop := value = yes /\ v = mkPvalue false false false [] \/ value = no /\ v = mkPvalue true false false [].
Definition envMeans (r : rule) (value : str) (v : pvalue) : Prop :=
  value <> [] /\
  (rType r = TBoolean /\ boolValue value v \/
   rType r <> TBoolean /\ rMulti r = true /\ (exists l, joinColon l = value /\ l <> [] /\ (forall a, In a l -> ~ In 58 a) /\ v = plainValue l) \/
   rType r <> TBoolean /\ rMulti r = false /\ v = plainValue [value]).

Variable ini : list iniLine.
(** The key of this section names the option *)
Definition keyIn (section key : str) : Prop := exists value, In (section, key, value) ini.
Definition inSection (section : str) (i : nat) (k : Z) : Prop := exists key, keyIn section key /\ configName key i k.
(** The option may be in this section of a file *)
Definition allowedIn (r : rule) (section : str) : Prop :=
  rSection r <> SecCommandLine /\ (rSection r = SecStanza -> section <> global /\ forall x, section <> global ++ 58 :: x).
(** All the values of a key in a section *)
Definition valuesOf (section key : str) (l : list str) : Prop := l = flat_map (fun x => if strEqb (fst (fst x)) section && strEqb (snd (fst x)) key then [snd x] else []) ini.
Definition fileMeans (r : rule) (values : list str) (v : pvalue) : Prop :=
  match values with
  | [] => False
  | [value] => value <> [] /\ (rType r = TBoolean /\ boolValue value v \/ rType r <> TBoolean /\ v = plainValue [value])
  | _ => rMulti r = true /\ v = plainValue values
  end.
(** The first section that has the option; there is only one key for it in that section *)
Definition firstSection (sections : list str) (r : rule) (i : nat) (k : Z) (section key : str) : Prop :=
  exists before after, sections = before ++ section :: after /\ keyIn section key /\ configName key i k /\ allowedIn r section /\
    (forall key', keyIn section key' -> configName key' i k -> key' = key) /\
    forall s, In s before -> inSection s i k -> ~ allowedIn r s.

(** The value of an option: from the command line; else, if it is valid for the command, from the environment; else from the first section of the file that has it; else none *)
Inductive decided (gs : list given) (valid : nat -> bool) (env sections : list str) (i : nat) (k : Z) : option pvalue -> Prop :=
| dcLine : givenFor gs i k <> [] -> decided gs valid env sections i k (valueGiven (givenFor gs i k))
| dcEnv r value v : givenFor gs i k = [] -> valid i = true -> nth_error rules i = Some r -> firstEnv env i k value -> envMeans r value v -> decided gs valid env sections i k (Some v)
| dcFile r section key values v : givenFor gs i k = [] -> valid i = true -> nth_error rules i = Some r -> ~ inEnv env i k -> firstSection sections r i k section key ->
    valuesOf section key values -> fileMeans r values v -> decided gs valid env sections i k (Some v)
| dcNone : givenFor gs i k = [] ->
    (valid i = true -> ~ inEnv env i k /\ forall r s, nth_error rules i = Some r -> In s sections -> inSection s i k -> ~ allowedIn r s) -> decided gs valid env sections i k None.
End Config.

(** The sections for a command: of the stanza if there is one, then the global ones, the section for the command first *)
Definition sectionsFor (stanza : option str) (command : str) : list str :=
  match stanza with Some s => [s ++ 58 :: command; s] | None => [] end ++ [global ++ 58 :: command; global].
