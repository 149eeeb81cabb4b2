(** JSON as the standard (RFC 8259) defines it, limited to what pgBackRest uses: integers, one-byte characters and keys without escapes. *)
From Verif Require Import Base Str NumSpec JsonModel.
From Coq Require Import Permutation.
Open Scope Z_scope.

Definition wsp (w : str) : Prop := Forall (fun c => c = 32 \/ c = 9 \/ c = 10 \/ c = 13) w.

(** Text of one character of a string; [u] tells whether \u escapes may be used. *)
Inductive jcharIs (u : bool) : Z -> str -> Prop :=
| c_plain c : c <> 34 -> c <> 92 -> jcharIs u c [c]
| c_esc e c : In (e, c) [(34, 34); (92, 92); (47, 47); (110, 10); (114, 13); (116, 9); (98, 8); (102, 12)] -> jcharIs u c [92; e]
| c_uni a b x y : u = true -> digitIs a x -> digitIs b y -> x < 16 -> y < 16 -> jcharIs u (16 * x + y) [92; 117; 48; 48; a; b].
Inductive jcharsAre (u : bool) : str -> str -> Prop :=
| cs_nil : jcharsAre u [] []
| cs_cons c t s r : jcharIs u c t -> jcharsAre u s r -> jcharsAre u (c :: s) (t ++ r).
Definition jkeyText (k : str) : Prop := ~ In 34 k /\ ~ In 92 k.

(** [jgram u v s]: [s] is a JSON text of the value [v], without white space around it.  Integers are up to 64 bits and are [JInt] exactly when
    they have a minus sign; the members of an object are in the order of the text. *)
Inductive jgram (u : bool) : jvar -> str -> Prop :=
| g_null : jgram u JNull [110;117;108;108]
| g_true : jgram u (JBool true) [116;114;117;101]
| g_false : jgram u (JBool false) [102;97;108;115;101]
| g_uint ds v : digitsIs 10 ds v -> (length ds < 64)%nat -> v < 2 ^ 64 -> jgram u (JUInt v) ds
| g_int ds v : digitsIs 10 ds v -> (length ds < 64)%nat -> v <= 2 ^ 63 -> jgram u (JInt (- v)) (45 :: ds)
| g_str s t : jcharsAre u s t -> jgram u (JStr s) (34 :: t ++ [34])
| g_arr0 w : wsp w -> jgram u (JArr []) (91 :: w ++ [93])
| g_arr l s : jelems u l s -> jgram u (JArr l) (91 :: s ++ [93])
| g_obj0 w : wsp w -> jgram u (JObj []) (123 :: w ++ [125])
| g_obj l s : jmembers u l s -> NoDup (map fst l) -> jgram u (JObj l) (123 :: s ++ [125])
with jelems (u : bool) : list jvar -> str -> Prop :=
| e_one v s w w' : jgram u v s -> wsp w -> wsp w' -> jelems u [v] (w ++ s ++ w')
| e_more v s w w' l t : jgram u v s -> wsp w -> wsp w' -> jelems u l t -> jelems u (v :: l) (w ++ s ++ w' ++ 44 :: t)
with jmembers (u : bool) : list (str * jvar) -> str -> Prop :=
| m_one k v s w w1 w2 w' : jkeyText k -> jgram u v s -> wsp w -> wsp w1 -> wsp w2 -> wsp w' ->
    jmembers u [(k, v)] (w ++ (34 :: k ++ [34]) ++ w1 ++ 58 :: w2 ++ s ++ w')
| m_more k v s w w1 w2 w' l t : jkeyText k -> jgram u v s -> wsp w -> wsp w1 -> wsp w2 -> wsp w' -> jmembers u l t ->
    jmembers u ((k, v) :: l) (w ++ (34 :: k ++ [34]) ++ w1 ++ 58 :: w2 ++ s ++ w' ++ 44 :: t).
Scheme jgram_mind := Induction for jgram Sort Prop
  with jelems_mind := Induction for jelems Sort Prop
  with jmembers_mind := Induction for jmembers Sort Prop.
Combined Scheme jgram_mutind from jgram_mind, jelems_mind, jmembers_mind.

(** Values that differ only in the type of their integers and the order of the pairs. *)
Inductive jsame : jvar -> jvar -> Prop :=
| s_null : jsame JNull JNull
| s_bool b : jsame (JBool b) (JBool b)
| s_int z : jsame (JInt z) (JInt z)
| s_uint z : jsame (JUInt z) (JUInt z)
| s_iu z : jsame (JInt z) (JUInt z)
| s_str s : jsame (JStr s) (JStr s)
| s_arr l l' : Forall2 jsame l l' -> jsame (JArr l) (JArr l')
| s_obj l m l' : Permutation l m -> Forall2 (fun p q => fst p = fst q /\ jsame (snd p) (snd q)) m l' -> jsame (JObj l) (JObj l').

(** What may be written: integers of 64 bits, distinct keys of at most 66 characters without quotes and backslashes. *)
Inductive jwritable : jvar -> Prop :=
| w_null : jwritable JNull
| w_bool b : jwritable (JBool b)
| w_int z : - 2 ^ 63 <= z < 2 ^ 63 -> jwritable (JInt z)
| w_uint z : 0 <= z < 2 ^ 64 -> jwritable (JUInt z)
| w_str s : ~ In 0 s -> jwritable (JStr s)
| w_arr l : Forall jwritable l -> jwritable (JArr l)
| w_obj l : NoDup (map fst l) -> Forall (fun p => jkeyText (fst p) /\ ~ In 0 (fst p) /\ (length (fst p) < 67)%nat /\ jwritable (snd p)) l -> jwritable (JObj l).

(** What the callers do: look for a key, and read its value if it is there. *)
Definition readField (st : jread) (key : str) : res (option jvar * jread) :=
  let* (found, st) := jsonReadKeyExpect st key in
  if found : bool then let* (v, st) := jsonReadVar st in Ok (Some v, st) else Ok (None, st).
Fixpoint readFields (st : jread) (keys : list str) : res (list (option jvar) * jread) :=
  match keys with
  | [] => Ok ([], st)
  | k :: r => let* (v, st) := readField st k in let* (l, st) := readFields st r in Ok (v :: l, st)
  end.
