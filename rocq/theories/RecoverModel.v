(** Recovery settings of a restored cluster.  Models src/command/restore/config.c.inc:1-405.
    Strings are without zero bytes (they come from the command line, the environment or lines of files), but for the file read.  The options and the
    command line of archive-get (cfgExecParam()) are arguments.  OptionInvalidError is EOptionInvalidValue.  Logging, modes and owners are left out. *)
From Verif Require Import Base Str LsnModel RegModel RegNameModel JsonModel IniModel SpoolModel HttpModel.
From Coq Require Import String List.
Open Scope Z_scope. Open Scope list_scope.

(** config.auto.h:412-438 *)
Inductive recType := TDefault | TPreserve | TImmediate | TStandby | TNone | TName | TTime | TLsn | TXid.
(** cfgOptionDisplay(cfgOptType) *)
Definition typeText (t : recType) : str :=
  match t with
  | TDefault => txt "default" | TPreserve => txt "preserve" | TImmediate => txt "immediate" | TStandby => txt "standby" | TNone => txt "none"
  | TName => txt "name" | TTime => txt "time" | TLsn => txt "lsn" | TXid => txt "xid"
  end.
(** The options read; [oUser] is recovery-option, with no key twice, [oCmd] cmd, [oParam] the command line of archive-get. *)
Record opts := mkOpts {
  oType : recType; oUser : option (list (str * str)); oArchivePreserve : bool; oCmd : str; oParam : list str; oTarget : str; oExclusive : option bool;
  oAction : option str; oTimeline : option str }.

(** postgres/version.auto.h:15, version.h:21 *)
Definition pgVersion12 : Z := 120000.
(** string.c:930-948 strReplaceChr(key, '-', '_') *)
Definition underscores (s : str) : str := map (fun c => if c =? 45 then 95 else c) s.
(** strLstJoin(list, " ") *)
Fixpoint joinSpace (l : list str) : str := match l with [] => [] | [x] => x | x :: r => x ++ 32 :: joinSpace r end.
(** config.c.inc:44-65 options of the user: the settings and the list of their names *)
Definition userPart (o : opts) : list (str * str) * list str :=
  match oUser o with
  | None => ([], [])
  | Some kv =>
      let keys := strLstSortAsc (map fst kv) in
      (fold_left (fun r k => kvPut r (underscores k) (match kvGet kv k with Some v => v | None => [] end)) keys [], strLstSortAsc (map underscores keys))
  end.
(** config.c.inc:67-83 *)
Definition archivePart (o : opts) (v : Z) (r : list (str * str)) : res (list (str * str)) :=
  if oArchivePreserve o then Ok r
  else if v <? pgVersion12 then Err EOptionInvalidValue
  else Ok (kvPut r (txt "archive_mode") (txt "off")).
(** config.c.inc:85-112 *)
Definition commandPart (o : opts) (names : list str) (r : list (str * str)) : list (str * str) :=
  if existsb (strEqb (txt "restore_command")) names then r
  else kvPut r (txt "restore_command") (oCmd o ++ txt " " ++ joinSpace (oParam o) ++ txt " %f ""%p""").
(** config.c.inc:114-137 *)
Definition targetPart (o : opts) (v : Z) (r : list (str * str)) : list (str * str) :=
  match oType o with
  | TImmediate => kvPut r (txt "recovery_target") (txt "immediate")
  | TStandby => if v <? pgVersion12 then kvPut r (txt "standby_mode") (txt "on") else r
  | TDefault => r
  | t =>
      let r := kvPut r (txt "recovery_target_" ++ typeText t) (oTarget o) in
      match oExclusive o with Some true => kvPut r (txt "recovery_target_inclusive") (txt "false") | _ => r end
  end.
(** config.c.inc:139-148 *)
Definition actionPart (o : opts) (r : list (str * str)) : list (str * str) :=
  match oAction o with
  | Some a => if negb (strEqb a (txt "pause")) then kvPut r (txt "recovery_target_action") a else r
  | None => r
  end.
(** config.c.inc:150-168 *)
Definition timelinePart (o : opts) (v : Z) (r : list (str * str)) : list (str * str) :=
  match oTimeline o with
  | Some t => if (pgVersion12 <=? v) || negb (strEqb t (txt "current")) then kvPut r (txt "recovery_target_timeline") t else r
  | None => match oType o with TImmediate => if pgVersion12 <=? v then kvPut r (txt "recovery_target_timeline") (txt "current") else r | _ => r end
  end.
(** config.c.inc:29-176 restoreRecoveryOption *)
Definition recoveryOption (o : opts) (v : Z) : res (list (str * str)) :=
  let (r, names) := userPart o in
  let* r := archivePart o v r in
  Ok (timelinePart o v (actionPart o (targetPart o v (commandPart o names r)))).

(** config.c.inc:179-207 restoreRecoveryConf *)
Definition settingLine (p : str * str) : str := fst p ++ txt " = '" ++ snd p ++ txt "'" ++ [10].
Definition recoveryConf (o : opts) (v : Z) (label : str) : res str :=
  let* r := recoveryOption o v in
  Ok (txt "# Recovery settings generated by pgBackRest restore on " ++ label ++ [10] ++ concat (map settingLine r)).

(** config.c.inc:270-275 *)
Definition recoveryExp : str :=
  txt "^[" ++ [9] ++ txt " ]*(recovery_target|recovery_target_action|recovery_target_inclusive|recovery_target_lsn|recovery_target_name|recovery_target_time|recovery_target_timeline|recovery_target_xid)["
  ++ [9] ++ txt " ]*=".
(** config.c.inc:277-293 the lines of the old file *)
Definition oldLine (e : re) (label l : str) : str := if regExpMatch e l then txt "# Removed by pgBackRest restore on " ++ label ++ txt " # " ++ l else l.
Fixpoint joinLines (l : list str) : str := match l with [] => [] | [x] => x | x :: r => x ++ 10 :: joinLines r end.
Definition typeIs (a b : recType) : bool := strEqb (typeText a) (typeText b).
(** config.c.inc:248-302 *)
Definition oldContent (o : opts) (label : str) (old : option str) : res str :=
  match old with
  | None => Ok []
  | Some c =>
      let* e := regExpNew recoveryExp in
      let content := joinLines (map (oldLine e label) (splitOn 10 (cz c))) in
      Ok (if typeIs (oType o) TNone then content else strTrim content ++ [10; 10])
  end.
(** What is written; None is a file left as it is. *)
Record written := mkWritten { wAuto : option str; wConf : option str; wStandby : bool; wRecovery : bool }.
(** config.c.inc:238-364 restoreRecoveryWriteAutoConf *)
Definition writeAutoConf (o : opts) (v : Z) (label : str) (old : option str) : res written :=
  let* content := oldContent o label old in
  let* content :=
    (if typeIs (oType o) TNone then Ok content
     else if existsb (fun p => strEqb (underscores (fst p)) (txt "standby_mode")) (match oUser o with Some kv => kv | None => [] end) then Err EOptionInvalidValue
     else let* c := recoveryConf o v label in Ok (content ++ c)) in
  Ok (mkWritten (Some content) None (typeIs (oType o) TStandby) (negb (typeIs (oType o) TStandby) && negb (typeIs (oType o) TNone))).
(** config.c.inc:210-235 restoreRecoveryWriteConf *)
Definition writeConf (o : opts) (v : Z) (label : str) : res written :=
  if typeIs (oType o) TNone then Ok (mkWritten None None false false)
  else let* c := recoveryConf o v label in Ok (mkWritten None (Some c) false false).
(** config.c.inc:366-405 restoreRecoveryWrite; [old] is postgresql.auto.conf as restored *)
Definition recoveryWrite (o : opts) (v : Z) (label : str) (old : option str) : res written :=
  if typeIs (oType o) TPreserve then Ok (mkWritten None None false false)
  else if pgVersion12 <=? v then writeAutoConf o v label old
  else writeConf o v label.
