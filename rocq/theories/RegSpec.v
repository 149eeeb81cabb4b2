(** What a regular expression matches, stated without the matcher: [matches r b m a] says that [r] matches the part [m] of the string
    [b ++ m ++ a]. *)
From Coq Require Import String.
From Verif Require Import Base Str RegModel RegNameModel.
Open Scope Z_scope.

Inductive matches : re -> str -> str -> str -> Prop :=
| MEps b a : matches REps b [] a
| MBeg a : matches RBeg [] [] a
| MEnd b : matches REnd b [] []
| MIn rs c b a : (exists r, In r rs /\ fst r <= c <= snd r) -> matches (RCls false rs) b [c] a
| MOut rs c b a : (forall r, In r rs -> ~ fst r <= c <= snd r) -> matches (RCls true rs) b [c] a
| MCat p q b m1 m2 a : matches p b m1 (m2 ++ a) -> matches q (b ++ m1) m2 a -> matches (RCat p q) b (m1 ++ m2) a
| MAltL p q b m a : matches p b m a -> matches (RAlt p q) b m a
| MAltR p q b m a : matches q b m a -> matches (RAlt p q) b m a
| MStar0 p b a : matches (RStar p) b [] a
| MStarS p b m1 m2 a : matches p b m1 (m2 ++ a) -> matches (RStar p) (b ++ m1) m2 a -> matches (RStar p) b (m1 ++ m2) a.

(** A string matches when some part of it does *)
Definition found (r : re) (s : str) : Prop := exists b m a, s = b ++ m ++ a /\ matches r b m a.

(** All characters between two codes *)
Definition between (lo hi : Z) (s : str) : Prop := forall c, In c s -> lo <= c <= hi.
Definition digits (s : str) : Prop := between 48 57 s.

(** The text does not make what is before it optional: after any number of '+' there is none of '*', '?' and an interval *)
Fixpoint notOptional (s : str) : Prop :=
  match s with
  | [] => True
  | c :: t => c <> cStar /\ c <> cQuest /\ c <> cBrace /\ (c = cPlus -> notOptional t)
  end.

(** Names: the extension of a compressed file; what follows the name of a segment in the archive; times and labels of backups *)
Definition isExt (s : str) : Prop := In s [txt ".gz"; txt ".lz4"; txt ".zst"; txt ".xz"; txt ".bz2"].
Definition hashExt (s : str) : Prop := exists h x, s = txt "-" ++ h ++ x /\ length h = 40%nat /\ between 48 102 h /\ (x = [] \/ isExt x).
Definition dateTime (s : str) : Prop := exists d t, s = d ++ txt "-" ++ t /\ length d = 8%nat /\ length t = 6%nat /\ digits d /\ digits t.
Definition fullLabel (s : str) : Prop := exists t, s = t ++ txt "F" /\ dateTime t.
Definition depLabel (diff incr : bool) (s : str) : Prop :=
  exists f t c, s = f ++ txt "_" ++ t ++ c /\ fullLabel f /\ dateTime t /\ (diff = true /\ c = txt "D" \/ incr = true /\ c = txt "I").

