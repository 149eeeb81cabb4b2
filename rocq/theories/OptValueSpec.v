(** What the value of an option is *)
From Coq Require Import Sorting.Sorted.
From Verif Require Import Base Str NumSpec OptNameModel OptLoadModel OptSizeSpec OptValueModel.
Open Scope Z_scope.
Open Scope list_scope.

(** * Rules *)
Definition appliesTo (cmd : nat) (g : rgroup) : Prop := match fst g with None => True | Some cmds => In cmd cmds end.
(** The rules of an option for a command are those of the first group that is for the command *)
Definition rulesFor (groups : list rgroup) (cmd : nat) (l : list orule) : Prop :=
  (exists a g b, groups = a ++ g :: b /\ Forall (fun g => ~ appliesTo cmd g) a /\ appliesTo cmd g /\ l = snd g) \/ (Forall (fun g => ~ appliesTo cmd g) groups /\ l = []).
(** One rule of a kind at most, in the order of the kinds *)
Definition ordered (l : list orule) : Prop := StronglySorted (fun a b => kind a < kind b) l.

(** * Dependencies *)
Section Spec.
Variable rules : list rule.
Variable first : str.

Definition inAGroup (o : nat) : Prop := exists r g, nth_error rules o = Some r /\ rGroup r = Some g.
(** The value of the option that another one depends on: that of the same index, if it has indexes *)
Definition valueAt (c : conf) (d idx : nat) (dv : cval) : Prop :=
  exists row i, confGet c d = Some row /\ nth_error row i = Some dv /\ ((inAGroup d /\ i = idx) \/ (~ inAGroup d /\ i = 0%nat)).
(** It is set, and it has one of the values if there are any.  [m] is the value, if it is a text. *)
Definition depMet (dv : cval) (vals : list depval) (m : str) : Prop :=
  cvSet dv = true /\
  ((vals = [] /\ m = first) \/ (exists b, In (DepBool b) vals /\ b = match cvValue dv with VBool x => x | _ => false end /\ m = first) \/
   (exists s, In (DepText s) vals /\ cvDisplay dv = Some s /\ m = s)).
(** The values are all of one type *)
Definition oneType (vals : list depval) : Prop := (forall x, In x vals -> exists b, x = DepBool b) \/ (forall x, In x vals -> exists s, x = DepText s).
Definition met (c : conf) (l : list orule) (idx : nat) (m : str) : Prop :=
  ((forall x d vals, ~ In (OValid x d vals) l) /\ m = first) \/ (exists x d vals dv, In (OValid x d vals) l /\ valueAt c d idx dv /\ depMet dv vals m).
Definition unmet (c : conf) (l : list orule) (idx : nat) (dflt : option oval) : Prop :=
  exists d vals dv, In (OValid dflt d vals) l /\ valueAt c d idx dv /\ forall m, ~ depMet dv vals m.
End Spec.

(** * Values *)
(** What a number says *)
Definition numberIs (ty : otype) (s : str) (n : Z) : Prop :=
  match ty with
  | TInteger => signedText 10 s n /\ - 2 ^ 63 <= n < 2 ^ 63
  | TSize => sizeText s n /\ n < 2 ^ 63
  | TTime => exists num a m, timeText s num a m /\ (length num <= 64)%nat /\ n = a * m /\ - 2 ^ 63 <= n < 2 ^ 63
  | _ => False
  end.
(** The range there is, if any *)
Definition limitIs (l : list orule) (m : str) (n : Z) : Prop :=
  (forall lo hi, In (ORange (RangeAll lo hi)) l -> lo <= n <= hi) /\
  (forall rs a lo hi b, In (ORange (RangeMap rs)) l -> rs = a ++ (m, (lo, hi)) :: b -> (forall x, In x a -> fst x <> m) -> lo <= n <= hi).
(** A path that starts with / and has no //; one / at the end is taken off *)
Definition pathIs (s p : str) : Prop :=
  (exists r, s = 47 :: r) /\ (forall a b, s <> a ++ 47 :: 47 :: b) /\ ((s = p /\ (s = [47] \/ forall a, s <> a ++ [47])) \/ (s = p ++ [47] /\ p <> [])).
(** Each key has the value given last *)
Definition hashIs (vals : list str) (h : list (str * str)) : Prop :=
  NoDup (map fst h) /\ (forall s, In s vals -> In 61 s) /\
  (forall k v, In (k, v) h <-> ~ In 61 k /\ exists a b, vals = a ++ (k ++ 61 :: v) :: b /\ forall w, ~ In (k ++ 61 :: w) b).
(** The place of the value in the list of allowed values; it is not one the program was built without *)
Definition allowedAt (l : list (allowed * bool)) (x : allowed) (n : nat) : Prop := nth_error l n = Some (x, false) /\ forall i m, (i < n)%nat -> nth_error l i <> Some (x, m).
Definition allowIs (l : list orule) (x : allowed) (seq : Z) : Prop :=
  (exists al n, In (OAllow al) l /\ allowedAt al x n /\ seq = Z.of_nat n) \/ ((forall al, ~ In (OAllow al) l) /\ seq = 0).

(** The value, display and sequence of an option that was given.  [sq] is that the option has sequences. *)
Definition valueIs (ty : otype) (v : pvalue) (l : list orule) (m : str) (sq : bool) (x : oval) (disp : option str) (seq : Z) : Prop :=
  match ty with
  | TBoolean => x = VBool (negb (pvNegate v)) /\ disp = None /\ seq = 0
  | THash => (exists h, x = VHash h /\ hashIs (pvValues v) h) /\ disp = None /\ seq = 0
  | TList => x = VList (pvValues v) /\ disp = None /\ seq = 0
  | TInteger | TSize | TTime =>
      exists s r n q, pvValues v = s :: r /\ disp = Some s /\ x = VInt n /\ seq = 0 /\ numberIs ty s n /\ limitIs l m n /\ allowIs l (AllowInt n) q
  | TStringId => exists s r q, pvValues v = s :: r /\ disp = Some s /\ x = VZero /\ allowIs l (AllowText s) q /\ seq = (if sq then q else 0)
  | TString => exists s r, pvValues v = s :: r /\ disp = Some s /\ s <> [] /\ x = VStr s /\ seq = 0
  | TPath => exists s r p, pvValues v = s :: r /\ disp = Some s /\ x = VStr p /\ pathIs s p /\ seq = 0
  end.
(** Lists of allowed values have texts for StringId and numbers for the rest; the other types have none *)
Definition typed (ty : otype) (l : list orule) : Prop :=
  forall al, In (OAllow al) l ->
  match ty with
  | TStringId => forall x, In x al -> exists s, fst x = AllowText s
  | TInteger | TSize | TTime => forall x, In x al -> exists n, fst x = AllowInt n
  | _ => False
  end.

(** The default there is *)
Definition defaultIs (bin : str) (l : list orule) (m : str) (sq : bool) (x : oval) (raw : str) (seq : Z) : Prop :=
  (In (ODefault DefDynamic) l /\ x = VStr bin /\ raw = bin /\ seq = 0) \/
  (exists q, In (ODefault (DefAll x raw q)) l /\ seq = if sq then q else 0) \/
  (exists dl a b, In (ODefault (DefMap dl)) l /\ dl = a ++ (m, (x, raw)) :: b /\ (forall y, In y a -> fst y <> m) /\ seq = 0).
(** A value is needed *)
Definition needed (r : rule) (l : list orule) : Prop := (In ORequired l /\ rRequired r = false) \/ (~ In ORequired l /\ rRequired r = true).
(** If the option has sequences *)
Definition sequenced (base : bool) (l : list orule) (sq : bool) : Prop := (In OSequence l /\ sq = negb base) \/ (~ In OSequence l /\ sq = base).
