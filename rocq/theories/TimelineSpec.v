(** Timelines as PostgreSQL makes them. *)
From Verif Require Import Base Str NumSpec LsnSpec SpoolSpec.
Open Scope Z_scope.

(** A family of timelines: the parent of each, with the LSN where it was left. *)
Definition family := Z -> option (Z * Z).
(** Timeline [a] is left at LSN [s] on the way to [t]. *)
Inductive leaves (p : family) (a s : Z) : Z -> Prop :=
| lv_here t : p t = Some (a, s) -> leaves p a s t
| lv_up t q x : p t = Some (q, x) -> leaves p a s q -> leaves p a s t.
(** What PostgreSQL writes in the history file of a timeline: the history of the parent and the switch from it. *)
Inductive historyOf (p : family) : Z -> list (Z * Z) -> Prop :=
| ho_root t : p t = None -> historyOf p t []
| ho_child t q x h : p t = Some (q, x) -> historyOf p q h -> historyOf p t (h ++ [(q, x)]).

(** LSN text: two hexadecimal parts of 32 bits; wider parts wrap *)
Definition lsnText (s : str) (v : Z) : Prop :=
  exists hi lo h l, s = hi ++ 47 :: lo /\ unsignedText 16 hi h /\ h < 2 ^ 64 /\ unsignedText 16 lo l /\ l < 2 ^ 64 /\ v = (h * 2 ^ 32 + l) mod 2 ^ 64.
(** A line of a history file: blank, a comment, or timeline TAB LSN, more after another TAB. *)
Inductive lineIs : str -> option (Z * Z) -> Prop :=
| li_blank l : Forall white l -> lineIs l None
| li_comment a r : Forall white a -> lineIs (a ++ 35 :: r) None
| li_item a st sl rest t l : Forall white a -> unsignedText 10 st t -> t < 2 ^ 32 -> lsnText sl l -> Forall white rest \/ (exists r, rest = 9 :: r) ->
    lineIs (a ++ st ++ 9 :: sl ++ rest) (Some (t, l)).
Inductive linesAre : list str -> list (Z * Z) -> Prop :=
| ls_nil : linesAre [] []
| ls_none x r l : lineIs x None -> linesAre r l -> linesAre (x :: r) l
| ls_some x i r l : lineIs x (Some i) -> linesAre r l -> linesAre (x :: r) (i :: l).
Fixpoint joinNl (lines : list str) : str := match lines with [] => [] | [x] => x | x :: r => x ++ 10 :: joinNl r end.
(** The text of a history file and what it says. *)
Definition spells (text : str) (h : list (Z * Z)) : Prop := exists lines, lines <> [] /\ Forall (fun l => ~ In 10 l) lines /\ text = joinNl lines /\ linesAre lines h.

(** "<8 upper case hexadecimal digits>.history" *)
Definition historyName (n : Z) (s : str) : Prop := exists d, hex8Is d n /\ s = d ++ [46;104;105;115;116;111;114;121].
(** [histLike s]: eight characters from '0' to 'F' and ".history" somewhere. *)
Definition histLike (s : str) : Prop := exists a m b, s = a ++ m ++ [46;104;105;115;116;111;114;121] ++ b /\ length m = 8%nat /\ Forall (fun c => 48 <= c <= 70) m.
(** The newest timeline of the backup's and the archived history files. *)
Definition newestTimeline (names : list str) (current t : Z) : Prop :=
  (t = current \/ exists s, In s names /\ historyName t s) /\ current <= t /\ (forall s n, In s names -> historyName n s -> n <= t).
(** The given target timeline: decimal, or hexadecimal after 0x *)
Definition numberTarget (s : str) (t : Z) : Prop :=
  t < 2 ^ 32 /\ ((exists r, s = 48 :: 120 :: r /\ unsignedText 16 r t) \/ ((forall r, s <> 48 :: 120 :: r) /\ unsignedText 10 s t)).
