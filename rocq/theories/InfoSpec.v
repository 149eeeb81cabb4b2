(** What an ini line, an info file and its checksum mean, stated without the reader and the writer. *)
From Verif Require Import Base Str JsonModel JsonSpec.
From Coq Require Import Sorting.Sorted.
Open Scope Z_scope.

(** What may be the value of a line: no array, and the keys of an object start with a letter. *)
Definition lineValue (v : jvar) : Prop :=
  match v with
  | JArr _ => False
  | JObj l => Forall (fun p => exists c k, fst p = c :: k /\ 97 <= c <= 122) l
  | _ => True
  end.
(** The text of such a value, on one line. *)
Definition valueText (s : str) : Prop := exists v, jgram false v s /\ lineValue v /\ ~ In 10 s.
(** At least 19 digits in a row. *)
Definition manyDigits (s : str) : Prop := exists p d r, s = p ++ d ++ r /\ Forall (fun c => 48 <= c <= 57) d /\ (19 <= length d)%nat.
(** A key and value that can be written: the key is not empty and has no linefeed; long numbers may be there only if the key has no '='. *)
Definition goodKeyValue (k s : str) : Prop :=
  k <> [] /\ ~ In 10 k /\ valueText s /\ (~ In 61 k \/ (~ manyDigits k /\ ~ manyDigits s)).

(** The data of an info file: sections in ascending order, each with its keys and values. *)
Definition infoData : Type := list (str * list (str * str)).
Definition sectionBackrest : str := [98;97;99;107;114;101;115;116].
Definition sectionCipher : str := [99;105;112;104;101;114].
Definition goodData (data : infoData) : Prop :=
  StronglySorted slt (map fst data) /\
  Forall (fun p => fst p <> [] /\ ~ In 10 (fst p) /\ fst p <> sectionBackrest /\ fst p <> sectionCipher /\
                   Forall (fun q => goodKeyValue (fst q) (snd q)) (snd p)) data.
(** Everything in it, in order. *)
Definition flatten (data : infoData) : list (str * str * str) :=
  flat_map (fun p => map (fun q => (fst p, fst q, snd q)) (snd p)) data.
(** Every stretch without a linefeed is shorter than [n]. *)
Definition linesShorter (n : nat) (text : str) : Prop := forall a b c, text = a ++ b ++ c -> ~ In 10 b -> (length b < n)%nat.
(** Feeding the entries to a function one after the other. *)
Fixpoint feed {D} (cb : D -> str -> str -> str -> res D) (d : D) (l : list (str * str * str)) : res D :=
  match l with
  | [] => Ok d
  | (s, k, v) :: r => let* d := cb d s k v in feed cb d r
  end.

(** A text and its lines; the last linefeed may be missing. *)
Definition textLines (text : str) (lines : list str) : Prop :=
  Forall (fun l => ~ In 10 l) lines /\
  (text = flat_map (fun l => l ++ [10]) lines \/ exists ls l, lines = ls ++ [l] /\ l <> [] /\ text = flat_map (fun l => l ++ [10]) ls ++ l).
(** The entries of lines that follow a section line [s] ([] before the first): the value of a line starts after the first '=' that is followed
    by a JSON value, and the keys are not empty. *)
Inductive iniEntries : str -> list str -> list (str * str * str) -> Prop :=
| ie_nil s : iniEntries s [] []
| ie_blank s ls l : iniEntries s ls l -> iniEntries s ([] :: ls) l
| ie_section s n ls l : n <> [] -> iniEntries n ls l -> iniEntries s ((91 :: n ++ [93]) :: ls) l
| ie_value s k v ls l : s <> [] -> k <> [] -> ~ (exists n, k ++ 61 :: v = 91 :: n ++ [93]) -> jsonValidate v = Ok tt ->
    (forall k' w, k ++ 61 :: v = k' ++ 61 :: w -> (length k' < length k)%nat -> jsonValidate w = Err EJsonFormat) ->
    iniEntries s ls l -> iniEntries s ((k ++ 61 :: v) :: ls) ((s, k, v) :: l).
(** The text of which the checksum is taken: one JSON object with an object for each section. *)
Fixpoint checksumFrom (last : str) (l : list (str * str * str)) : str :=
  match l with
  | [] => [125;125]
  | (s, k, v) :: r =>
      (match last with [] => 34 :: s ++ [34;58;123] | _ => if strEqb s last then [44] else 125 :: 44 :: 34 :: s ++ [34;58;123] end)
        ++ jsonQuote k ++ 58 :: v ++ checksumFrom s r
  end.
Definition checksumText (l : list (str * str * str)) : str := 123 :: checksumFrom [] l.
(** Entries that are not the checksum itself, and those that are data. *)
Definition notChecksum (e : str * str * str) : bool :=
  negb (strEqb (fst (fst e)) sectionBackrest && strEqb (snd (fst e)) [98;97;99;107;114;101;115;116;45;99;104;101;99;107;115;117;109]).
Definition isData (e : str * str * str) : bool := negb (strEqb (fst (fst e)) sectionBackrest) && negb (strEqb (fst (fst e)) sectionCipher).
(** The entries of a text, and a checksum among entries. *)
Definition fileEntries (text : str) (l : list (str * str * str)) : Prop := exists ls, textLines text ls /\ iniEntries [] ls l.
Definition checksumIn (l : list (str * str * str)) (c : str) : Prop :=
  exists v, In (sectionBackrest, [98;97;99;107;114;101;115;116;45;99;104;101;99;107;115;117;109], v) l /\ jsonToVar v = Ok (JStr c).
(** Text without white space at either end. *)
Definition noWs (c : Z) : Prop := c <> 32 /\ c <> 9 /\ c <> 10 /\ c <> 13.
Definition trimmed (s : str) : Prop := s = [] \/ (exists c r, s = c :: r /\ noWs c) /\ (exists r c, s = r ++ [c] /\ noWs c).
