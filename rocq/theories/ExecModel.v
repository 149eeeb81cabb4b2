(** The command line for another process.  Models src/config/exec.c.

    The options of the configuration are a list, in order of the options and their indexes, with what the loop asks for each: the name
    (cfgOptionIdxName), whether the option is valid for the other command (cfgParseOptionValid), secure, the cipher type, valid for this command
    (cfgOptionValid), negated, reset, its source and value.  A value that is one text is that text (cfgOptionIdxDisplay, cfgOptionDisplayVar).
    Zero bytes are left out. *)
From Verif Require Import Base Str RegNameModel.
From Coq Require Import String List.
Open Scope Z_scope. Open Scope list_scope.

(** config.h ConfigSource *)
Inductive source := SrcDefault | SrcParam | SrcConfig.
Inductive value := VBool (b : bool) | VKv (kv : list (str * str)) | VLst (l : list str) | VOne (text : str).
Record eopt := mkEopt
{ eName : str; eValid : bool; eSecure : bool; eCipher : bool; eHere : bool; eNegate : bool; eReset : bool; eSource : source; eValue : option value }.

Definition isParam (s : source) : bool := match s with SrcParam => true | _ => false end.
Definition isDefault (s : source) : bool := match s with SrcDefault => true | _ => false end.
(** kvKeyExists and kvGet of the replacements (NULL has no keys) *)
Fixpoint replaced (replace : list (str * option value)) (name : str) : option (option value) :=
  match replace with [] => None | (k, v) :: r => if strEqb k name then Some v else replaced r name end.

(** exec.c:80-119: the texts of a value that is no boolean *)
Definition texts (v : value) : list str :=
  match v with
  | VBool _ => []
  | VKv kv => map (fun p => fst p ++ txt "=" ++ snd p) kv
  | VLst l => l
  | VOne t => [t]
  end.
(** exec.c:126-127 *)
Definition quoted (quote : bool) (v : str) : str := if quote && existsb (Z.eqb 32) v then txt """" ++ v ++ txt """" else v.
(** exec.c:48-132: one option and index *)
Definition execOne (replace : list (str * option value)) (local quote : bool) (o : eopt) : list str :=
  if negb (eValid o) || eSecure o || eCipher o then []
  else match replaced replace (eName o) with
       | Some None => []
       | r =>
           let exist := match r with Some _ => true | None => false end in
           let value := match r with
                        | Some v => v
                        | None => if eHere o then (if eNegate o then Some (VBool false) else if isDefault (eSource o) then None else eValue o) else None
                        end in
           match value with
           | None => if eHere o && eReset o then [txt "--reset-" ++ eName o] else []
           | Some v => if negb local || exist || isParam (eSource o) then
                         match v with
                         | VBool b => [txt "--" ++ (if b then [] else txt "no-") ++ eName o]
                         | _ => map (fun t => txt "--" ++ eName o ++ txt "=" ++ quoted quote t) (texts v)
                         end
                       else []
           end
       end.
(** exec.c:15-143 cfgExecParam; [command] is cfgParseCommandRoleName *)
Definition cfgExecParam (replace : list (str * option value)) (local quote : bool) (opts : list eopt) (command : str) : list str :=
  flat_map (execOne replace local quote) opts ++ [command].
