(** Which recovery settings are wanted, what PostgreSQL reads, and which lines are old targets, without the functions. *)
From Verif Require Import Base Str RegNameModel HttpSpec RecoverModel.
From Coq Require Import String List.
Open Scope Z_scope. Open Scope list_scope.

(** [k] is [n] with some underscores written as dashes. *)
Definition sameName (k n : str) : Prop := Forall2 (fun a b => (a = 45 /\ b = 95) \/ (a <> 45 /\ a = b)) k n.
(** Words with one space between them. *)
Inductive spaced : list str -> str -> Prop :=
| sp_nil : spaced [] []
| sp_one x : spaced [x] x
| sp_more x y l t : spaced (y :: l) t -> spaced (x :: y :: l) (x ++ txt " " ++ t).
(** Settings that follow from the options, whatever the user gives as recovery options. *)
Inductive forced (o : opts) (v : Z) : str -> str -> Prop :=
| fo_archive : oArchivePreserve o = false -> forced o v (txt "archive_mode") (txt "off")
| fo_command t : (forall kv k x, oUser o = Some kv -> In (k, x) kv -> ~ sameName k (txt "restore_command")) -> spaced (oCmd o :: oParam o ++ [txt "%f"; txt """%p"""]) t ->
    forced o v (txt "restore_command") t
| fo_immediate : oType o = TImmediate -> forced o v (txt "recovery_target") (txt "immediate")
| fo_standby : oType o = TStandby -> v < 120000 -> forced o v (txt "standby_mode") (txt "on")
| fo_target t n : In (t, n) [(TName, txt "recovery_target_name"); (TTime, txt "recovery_target_time"); (TLsn, txt "recovery_target_lsn"); (TXid, txt "recovery_target_xid")] ->
    oType o = t -> forced o v n (oTarget o)
| fo_exclusive : In (oType o) [TName; TTime; TLsn; TXid] -> oExclusive o = Some true -> forced o v (txt "recovery_target_inclusive") (txt "false")
| fo_action a : oAction o = Some a -> a <> txt "pause" -> forced o v (txt "recovery_target_action") a
| fo_timeline t : oTimeline o = Some t -> 120000 <= v \/ t <> txt "current" -> forced o v (txt "recovery_target_timeline") t
| fo_current : oTimeline o = None -> oType o = TImmediate -> 120000 <= v -> forced o v (txt "recovery_target_timeline") (txt "current").
(** The option of the user for a name; if it is there in more than one way, the last of them. *)
Definition userSetting (o : opts) (n x : str) : Prop :=
  exists kv k, oUser o = Some kv /\ In (k, x) kv /\ sameName k n /\ forall k2 x2, In (k2, x2) kv -> sameName k2 n -> sle k2 k.
Definition wanted (o : opts) (v : Z) (n x : str) : Prop := forced o v n x \/ ((forall y, ~ forced o v n y) /\ userSetting o n x).

(** A line of a configuration file that sets a target, as the C code understands it. *)
Definition gap (w : str) : Prop := Forall (fun c => c = 32 \/ c = 9) w.
Definition targetNames : list str :=
  [txt "recovery_target"; txt "recovery_target_action"; txt "recovery_target_inclusive"; txt "recovery_target_lsn"; txt "recovery_target_name"; txt "recovery_target_time";
   txt "recovery_target_timeline"; txt "recovery_target_xid"].
Definition targetLine (l : str) : Prop := exists w n w2 r, l = w ++ n ++ w2 ++ 61 :: r /\ gap w /\ gap w2 /\ In n targetNames.
(** The new lines for old ones. *)
Definition replaced (label l l2 : str) : Prop :=
  (targetLine l /\ l2 = txt "# Removed by pgBackRest restore on " ++ label ++ txt " # " ++ l) \/ (~ targetLine l /\ l2 = l).

(** PostgreSQL (guc-file.l): a quoted text after its first quote, and its value.  Octal numbers are not here: no more values are read without them. *)
Inductive pgQuoted : str -> str -> Prop :=
| pq_end : pgQuoted [39] []
| pq_char c t s : c <> 39 -> c <> 92 -> c <> 10 -> pgQuoted t s -> pgQuoted (c :: t) (c :: s)
| pq_double t s : pgQuoted t s -> pgQuoted (39 :: 39 :: t) (39 :: s)
| pq_escape c d t s : In (c, d) [(98, 8); (102, 12); (110, 10); (114, 13); (116, 9)] \/ (~ In c [98; 102; 110; 114; 116; 48; 49; 50; 51; 52; 53; 54; 55; 10] /\ d = c) -> pgQuoted t s -> pgQuoted (92 :: c :: t) (d :: s).
(** Values that need no quoting. *)
Definition clean (s : str) : Prop := ~ In 39 s /\ ~ In 92 s /\ ~ In 10 s.

(** The lines of a text, and a line of it. *)
Inductive linesOf : str -> list str -> Prop :=
| li_one l : ~ In 10 l -> linesOf l [l]
| li_more l t ls : ~ In 10 l -> linesOf t ls -> linesOf (l ++ 10 :: t) (l :: ls).
Definition lineIn (s l : str) : Prop := exists ls, linesOf s ls /\ In l ls.
(** The line of a setting. *)
Definition lineOf (p : str * str) : str := fst p ++ txt " = '" ++ snd p ++ txt "'".
Definition noLf (p : str * str) : Prop := ~ In 10 (fst p) /\ ~ In 10 (snd p).
