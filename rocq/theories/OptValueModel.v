(** The value of each option.  Models phase 5 of cfgParse() (src/config/parse.c:2385-2838), cfgParseOptionalRule() (src/config/parse.c:961-1260), cfgParseOptionalFilterDepend()
    (src/config/parse.c:1262-1355), cfgParseOptionValueCondition() (src/config/parse.c:1662-1697) and parseOptionBeta() (src/config/parse.c:376-398).

    The optional rules are decoded from their packs; a value in a rule is the text itself and not its index in parseRuleValueStr[], and the match value of a dependency is compared as text.
    Messages and warnings are left out.  Errors for options that are not valid (OptionInvalidError) or missing (OptionRequiredError) are EOther. *)
From Verif Require Import Base Str NumModel OptNameModel OptLoadModel OptSizeModel.
Open Scope Z_scope.
Open Scope list_scope.

(** config.intern.h ConfigOptionValueType: a union, all zero at first.  A StringId has no value but its display. *)
Inductive oval := VZero | VBool (b : bool) | VInt (n : Z) | VStr (s : str) | VHash (l : list (str * str)) | VList (l : list str).
Inductive source := SrcDefault | SrcParam | SrcConfig.
(** config.intern.h ConfigOptionValue without defaultValue, which is for help *)
Record cval := mkCval { cvSet : bool; cvNegate : bool; cvReset : bool; cvSource : source; cvValue : oval; cvDisplay : option str; cvSeq : Z }.

(** * Optional rules (parse.c:154-162, 236-283) *)
Inductive depval := DepBool (b : bool) | DepText (s : str).
Inductive range := RangeAll (lo hi : Z) | RangeMap (l : list (str * (Z * Z))).
(** An allowed value, and if it is followed by a mark that the program was built without support for it *)
Inductive allowed := AllowText (s : str) | AllowInt (n : Z).
Inductive default := DefDynamic | DefAll (v : oval) (raw : str) (seq : Z) | DefMap (l : list (str * (oval * str))).
Inductive orule :=
| OValid (dflt : option oval) (dep : nat) (vals : list depval)
| OSequence
| ORange (r : range)
| OAllow (l : list (allowed * bool))
| ODefault (d : default)
| ORequired.
(** enum ParseRuleOptionalType *)
Definition kind (r : orule) : Z := match r with OValid _ _ _ => 1 | OSequence => 2 | ORange _ => 3 | OAllow _ => 4 | ODefault _ => 5 | ORequired => 6 end.
(** PARSE_RULE_OPTIONAL_GROUP: the commands it is for, all if there are none given *)
Definition rgroup : Type := option (list nat) * list orule.

(** CfgParseOptionalRuleState: not yet searched, the rules left in the group found, done *)
Inductive rstate := RStart | RRest (l : list orule) | RDone.
(** parse.c:1030-1086 *)
Fixpoint findGroup (groups : list rgroup) (cmd : nat) : option (list orule) :=
  match groups with
  | [] => None
  | (None, l) :: _ => Some l
  | (Some cmds, l) :: r => if existsb (fun c => (c =? cmd)%nat) cmds then Some l else findGroup r cmd
  end.
(** parse.c:1089-1256: rules of a lower kind are skipped, a rule of a higher kind stays for later.  Skipping is for rules that have data: the kinds without (OSequence, ORequired) are never
    skipped by the calls in phase 5, which ask for OSequence always and for nothing after ORequired. *)
Fixpoint nextRule (l : list orule) (k : Z) : rstate * option orule :=
  match l with
  | [] => (RDone, None)
  | r :: l' => if kind r =? k then (RRest l', Some r) else if k <? kind r then (RRest l, None) else nextRule l' k
  end.
(** parse.c:1005-1260 without what is done with the rule *)
Definition ask (groups : list rgroup) (cmd : nat) (st : rstate) (k : Z) : rstate * option orule :=
  match st with
  | RDone => (RDone, None)
  | RRest l => nextRule l k
  | RStart => match findGroup groups cmd with Some l => nextRule l k | None => (RDone, None) end
  end.
(** The entry of a map for the match value (parse.c:1150-1166, 1205-1222) *)
Fixpoint findMatch {A} (l : list (str * A)) (m : str) : option A := match l with [] => None | (s, a) :: r => if strEqb s m then Some a else findMatch r m end.

(** * Dependencies *)
(** config->option[].index: the values resolved so far, None while the pointer is NULL *)
Definition conf : Type := list (nat * list cval).
Fixpoint confGet (c : conf) (o : nat) : option (list cval) := match c with [] => None | (o', l) :: r => if (o' =? o)%nat then Some l else confGet r o end.
(** parse.c:1291-1294; a NULL pointer or an index out of bounds is undefined behavior *)
Definition confValue (c : conf) (o : nat) (idx : nat) : res cval := match confGet c o with Some l => match nth_error l idx with Some v => Ok v | None => UB end | None => UB end.
(** parse.c:1297-1345: if the dependency is met, and the match value *)
Fixpoint depMatch (v : cval) (l : list depval) (m : str) : bool * str :=
  match l with
  | [] => (false, m)
  | DepBool b :: r => if Bool.eqb b (match cvValue v with VBool b' => b' | _ => false end) then (true, m) else depMatch v r m
  | DepText s :: r => if match cvDisplay v with Some d => strEqb s d | None => false end then (true, s) else depMatch v r s
  end.
Definition depend (v : cval) (l : list depval) (first : str) : bool * str :=
  if cvSet v then match l with [] => (true, first) | _ => depMatch v l first end else (false, first).

(** * Values *)
Fixpoint hasDoubleSlash (s : str) : bool := match s with a :: ((b :: _) as r) => ((a =? 47) && (b =? 47)) || hasDoubleSlash r | _ => false end.
(** parse.c:2672-2707 *)
Definition pathValue (s : str) : res str :=
  match s with
  | [] => Err EOptionInvalidValue
  | c :: _ =>
      if negb (c =? 47) then Err EOptionInvalidValue
      else if hasDoubleSlash s then Err EOptionInvalidValue
      else Ok (if (last s 0 =? 47) && negb (length s =? 1)%nat then removelast s else s)
  end.
(** parse.c:2551-2584; kvPut() replaces *)
Fixpoint hashPut (l : list (str * str)) (k v : str) : list (str * str) := match l with [] => [(k, v)] | (k', v') :: r => if strEqb k' k then (k', v) :: r else (k', v') :: hashPut r k v end.
Fixpoint hashValue (l : list str) (h : list (str * str)) : res (list (str * str)) :=
  match l with [] => Ok h | p :: r => match splitEqual p with (k, Some v) => hashValue r (hashPut h k v) | (_, None) => Err EOther end end.
(** parse.c:2607-2640: any error of the conversion is an invalid value *)
Definition intValue (t : otype) (s : str) : res Z :=
  match (match t with TInteger => cvtZToInt64 10 s | TSize => parseSize s | _ => parseTime s end) with Ok n => Ok n | Err _ => Err EOptionInvalidValue | UB => UB end.
(** parse.c:2713-2756 with cfgParseOptionValueCondition().  For the hint all values are read as numbers; a mark in the list is then a format error (parse.c:2758-2776, pack.c). *)
Fixpoint allowSearch (sid : bool) (l : list (allowed * bool)) (disp : str) (n : Z) (seq : Z) : res (option Z) :=
  match l with
  | [] => Ok None
  | (a, mark) :: r =>
      let found := match a with AllowText s => sid && strEqb s disp | AllowInt m => negb sid && (m =? n) end in
      if found then (if mark then Err EOptionInvalidValue else Ok (Some seq)) else allowSearch sid r disp n (seq + 1)
  end.
Definition allowValue (sid : bool) (l : list (allowed * bool)) (disp : str) (n : Z) : res Z :=
  let* r := allowSearch sid l disp n 0 in
  match r with Some seq => Ok seq | None => if existsb snd l then Err EFormat else Err EOptionInvalidValue end.

Definition isSid (t : otype) : bool := match t with TStringId => true | _ => false end.
Definition isNum (t : otype) : bool := match t with TInteger | TSize | TTime => true | _ => false end.

Section Value.
Variable rules : list rule.
(** parseRuleOption[].sequence and the optional rules of each option *)
Variable sequence : nat -> bool.
Variable optional : nat -> list rgroup.
(** config->command, config->help, config->bin, the id of the option beta, parseRuleValueStr[0] *)
Variable cmd : nat.
Variable help : bool.
Variable bin : str.
Variable betaId : nat.
Variable first : str.
(** parseOptionList *)
Variable t : table.

Definition grouped (o : nat) : bool := match nth_error rules o with Some r => match rGroup r with Some _ => true | None => false end | None => false end.
(** parse.c:376-398 *)
Definition betaError (o : nat) (r : rule) : bool := rBeta r && negb (o =? betaId)%nat && match getOpt t betaId 0 with Some v => pvNegate v | None => true end.

(** parse.c:2415-2427: the value given.  A value that was not found is all zero; its source is then not used. *)
Definition given (o : nat) (k : Z) : pvalue := match getOpt t o k with Some v => v | None => mkPvalue false false false [] end.
Definition isSet (o : nat) (k : Z) (r : rule) : bool :=
  match getOpt t o k with Some v => (match rType r with TBoolean => true | _ => false end || negb (pvNegate v)) && negb (pvReset v) | None => false end.
Definition srcOf (v : pvalue) : source := if pvParam v then SrcParam else SrcConfig.

(** parse.c:2544-2780: value, display and sequence of an option that is set.  strLstGet() of a list with no value is undefined behavior. *)
Definition setValue (o : nat) (r : rule) (v : pvalue) (seq : bool) (m : str) (st : rstate) : res (oval * option str * Z * rstate) :=
  match rType r with
  | TBoolean => Ok (VBool (negb (pvNegate v)), None, 0, st)
  | THash => let* h := hashValue (pvValues v) [] in Ok (VHash h, None, 0, st)
  | TList => Ok (VList (pvValues v), None, 0, st)
  | ty =>
      match pvValues v with
      | [] => UB
      | s :: _ =>
          let* vs :=
            (if isNum ty then
               let* n := intValue ty s in
               let '(st, a) := ask (optional o) cmd st 3 in
               let lim := match a with Some (ORange (RangeAll lo hi)) => Some (lo, hi) | Some (ORange (RangeMap l)) => findMatch l m | _ => None end in
               match lim with
               | Some (lo, hi) => if (n <? lo) || (hi <? n) then Err EOptionInvalidValue else Ok (VInt n, n, st)
               | None => Ok (VInt n, n, st)
               end
             else if isSid ty then Ok (VZero, 0, st)
             else
               match s with
               | [] => Err EOptionInvalidValue
               | _ => match ty with TPath => let* p := pathValue s in Ok (VStr p, 0, st) | _ => Ok (VStr s, 0, st) end
               end) in
          let '(value, n, st) := vs in
          let '(st, a) := ask (optional o) cmd st 4 in
          match a with
          | Some (OAllow l) => let* q := allowValue (isSid ty) l s n in Ok (value, Some s, if isSid ty && seq then q else 0, st)
          | _ => Ok (value, Some s, 0, st)
          end
      end
  end.

(** parse.c:2410-2838: one index of an option; [o] is valid, [k] the key and [idx] the index.  Returns the value and if it keeps the index of its group. *)
Definition resolve (c : conf) (o : nat) (r : rule) (k : Z) (idx : nat) : res (cval * bool) :=
  let v := given o k in
  let set := isSet o k r in
  let '(st, dep) := ask (optional o) cmd RStart 1 in
  let* ok :=
    match dep with
    | Some (OValid dflt d vals) =>
        let* dv := confValue c d (if grouped d then idx else 0%nat) in
        let '(met, m) := depend dv vals first in
        if negb met && set && pvParam v then
          (* parse.c:2469-2473 reads the index of this option, also if the dependency is not in a group *)
          let* _ := confValue c d idx in Err EOther
        else Ok (met, m, dflt)
    | _ => Ok (true, first, None)
    end in
  let '(met, m, dflt) := ok in
  let '(st, s) := ask (optional o) cmd st 2 in
  let seq := match s with Some _ => negb (sequence o) | None => sequence o end in
  if met then
    let* x :=
      (if set then
         if betaError o r then Err EOther
         else let* y := setValue o r v seq m st in let '(value, display, q, st) := y in Ok (mkCval true (pvNegate v) (pvReset v) (srcOf v) value display q, st)
       else Ok (mkCval false (pvNegate v) (pvReset v) (if pvNegate v then srcOf v else SrcDefault) VZero None 0, st)) in
    let '(cv, st) := x in
    let* cv :=
      (if (negb (cvSet cv) && negb (pvNegate v)) || help then
         let '(st, a) := ask (optional o) cmd st 5 in
         let def :=
           match a with
           | Some (ODefault DefDynamic) => Some (VStr bin, bin, 0)
           | Some (ODefault (DefAll x raw q)) => Some (x, raw, if seq then q else 0)
           | Some (ODefault (DefMap l)) => match findMatch l m with Some (x, raw) => Some (x, raw, 0) | None => None end
           | _ => None
           end in
         match def with
         | Some (x, raw, q) => Ok (if cvSet cv then cv else mkCval true (cvNegate cv) (cvReset cv) (cvSource cv) x (Some raw) q)
         | None =>
             if help then Ok cv
             else
               let '(_, a) := ask (optional o) cmd st 6 in
               if match a with Some _ => negb (rRequired r) | None => rRequired r end then Err EOther else Ok cv
         end
       else Ok cv) in
    Ok (cv, match rGroup r with Some _ => match cvSource cv with SrcDefault => false | _ => true end | None => false end)
  else
    match dflt with
    | Some x => Ok (mkCval true false false SrcDefault x None 0, false)
    | None => Ok (mkCval false (pvNegate v) (pvReset v) SrcDefault VZero None 0, false)
    end.

(** parse.c:2390-2838: the loop over the options in the order of resolution, and over the indexes of the group *)
Variable valid : nat -> bool.
(** optionGroup[].indexMap *)
Variable maps : nat -> list Z.
Definition keysFor (r : rule) : list Z := match rGroup r with Some g => maps g | None => [0] end.
Fixpoint resolveKeys (c : conf) (o : nat) (r : rule) (keys : list Z) (idx : nat) : res (list cval * list bool) :=
  match keys with
  | [] => Ok ([], [])
  | k :: keys => let* x := resolve c o r k idx in let* y := resolveKeys c o r keys (S idx) in Ok (fst x :: fst y, snd x :: snd y)
  end.
(** The indexes to keep: one entry for each option and index *)
Fixpoint resolveAll (order : list nat) (c : conf) (keep : list (nat * nat)) : res (conf * list (nat * nat)) :=
  match order with
  | [] => Ok (c, keep)
  | o :: order =>
      if valid o then
        match nth_error rules o with
        | None => UB
        | Some r =>
            let* x := resolveKeys c o r (keysFor r) 0 in
            let g := match rGroup r with Some g => g | None => 0%nat end in
            resolveAll order ((o, fst x) :: c) (keep ++ map (fun i => (g, fst i)) (filter (fun i : nat * bool => snd i) (combine (seq 0 (length (snd x))) (snd x))))
        end
      else resolveAll order c keep
  end.
End Value.
