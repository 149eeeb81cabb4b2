From Verif Require Import Base Str ConvertModel NumModel NumSpec NumProof EncodeModel EncodeProof JsonModel JsonSpec JsonProof JsonProof2 JsonProof3 JsonProof4 JsonProof8
  InfoModel InfoSpec InfoProof2 ManifestPackModel ManifestModel.
From Coq Require Import Permutation Sorting.Sorted.
Open Scope Z_scope.

(** * Values that are written and read *)

(** The text of a scalar, and the value that is read from it. *)
Definition vtext (v : jvar) : str :=
  match v with
  | JNull => nullZ | JBool b => if b then trueZ else falseZ | JInt z => cvtIntToZ z | JUInt z => cvtUIntToZ z | JStr s => jsonQuote s
  | _ => []
  end.
Definition scalarOk (v : jvar) : Prop :=
  match v with JNull | JBool _ | JStr _ => True | JInt z => 0 <= z < 2 ^ 63 | JUInt z => 0 <= z < 2 ^ 64 | _ => False end.
Definition canon (v : jvar) : jvar := match v with JInt z => JUInt z | v => v end.
Lemma numText_gram z : 0 <= z < 2 ^ 64 -> jgram false (JUInt z) (numText false 10 z).
Proof. intros H. apply g_uint; [apply numText_is; unfold two64; change (2 ^ 64) with 18446744073709551616 in *; lia|now apply numText_len|lia]. Qed.
Lemma vtext_gram v : scalarOk v -> jgram false (canon v) (vtext v).
Proof.
  destruct v as [|b|z|z|s|l|l]; cbn [scalarOk canon vtext]; intros H; try destruct H.
  - constructor.
  - destruct b; constructor.
  - unfold cvtIntToZ, intText. replace (z <? 0) with false by lia. apply numText_gram. change (2 ^ 63) with 9223372036854775808 in *. change (2 ^ 64) with 18446744073709551616. lia.
  - apply numText_gram. split; assumption.
  - apply quote_gram.
Qed.
Lemma vtext_write v w : scalarOk v -> wvaluePos w -> jsonWriteVarRecurse w v = Ok (wafter w (vtext v)).
Proof. destruct v; cbn [scalarOk]; intros H Hw; try destruct H; cbn [jsonWriteVarRecurse vtext]; now apply scalar_w. Qed.
Lemma fromVar_text v : scalarOk v -> jsonFromVar v = Ok (vtext v).
Proof. intros H. unfold jsonFromVar. rewrite (vtext_write v _ H) by (split; reflexivity). reflexivity. Qed.
Lemma digits_no10 s v b : digitsIs b s v -> ~ In 10 s.
Proof.
  induction 1 as [c d Hc|s v c d H IH Hc]; intros Hi.
  - destruct Hi as [Hi|[]]. inversion Hc; lia.
  - apply in_app_or in Hi as [Hi|[Hi|[]]]; [auto|]. inversion Hc; lia.
Qed.
Lemma numText_no10 z : 0 <= z < 2 ^ 64 -> ~ In 10 (numText false 10 z).
Proof. intros H. eapply digits_no10. apply numText_is; unfold two64; change (2 ^ 64) with 18446744073709551616 in *; lia. Qed.
Lemma vtext_no10 v : scalarOk v -> ~ In 10 (vtext v).
Proof.
  destruct v as [|b|z|z|s|l|l]; cbn [scalarOk vtext]; intros H; try destruct H.
  - cbn. lia.
  - destruct b; cbn; lia.
  - unfold cvtIntToZ, intText. replace (z <? 0) with false by lia. apply numText_no10. change (2 ^ 63) with 9223372036854775808 in *. change (2 ^ 64) with 18446744073709551616. lia.
  - apply numText_no10. split; assumption.
  - apply quote_no10.
Qed.
Lemma vtext_value v : scalarOk v -> valueText (vtext v).
Proof. intros H. exists (canon v). split; [now apply vtext_gram|]. split; [|now apply vtext_no10]. destruct v; try exact I; destruct H. Qed.

(** [rd] reads the value [v] as [a]. *)
Definition reads {A} (rd : jread -> res (A * jread)) (v : jvar) (a : A) : Prop :=
  forall st s tail, jgram false v s -> valuePos st (s ++ tail) -> follow tail -> rd st = Ok (a, after st tail).
Lemma valuePos_len st x : valuePos st x -> (length x <= length (jtext st))%nat.
Proof.
  intros [_ Hv]. destruct (jstack st) as [|[[] []] ?];
    [destruct Hv as (_ & w & _ & ->)|destruct Hv as (_ & w & _ & ->)|destruct Hv as (_ & w & _ & ->)|destruct Hv as (_ & w & w0 & _ & _ & ->)|destruct Hv as (_ & w & _ & ->)];
    rewrite ?app_length; cbn [length]; rewrite ?app_length; lia.
Qed.
Lemma reads_var v : reads jsonReadVar v v.
Proof.
  intros st s tail Hg Hv Hf. unfold jsonReadVar. apply (proj1 (read_grammar false) v s Hg _ _ tail); [|exact Hv|exact Hf].
  pose proof (valuePos_len _ _ Hv) as L. rewrite app_length in L. lia.
Qed.
Lemma digits_head s v rest : digitsIs 10 s v -> headOk (s ++ rest) TNumber.
Proof.
  intros H. destruct (digitsIs_all _ _ H) as [Hne Hall]. destruct s as [|c s]; [congruence|]. inversion Hall as [|? ? Hc _]; subst.
  unfold isDigit in Hc. cbn [app]. split.
  - unfold isWs. split; [|lia]. destruct (Z.eqb_spec c 32), (Z.eqb_spec c 9), (Z.eqb_spec c 10), (Z.eqb_spec c 13); lia || reflexivity.
  - unfold jtypeAt. replace (c =? 34) with false by lia. replace (isDigit c) with true by (unfold isDigit; lia). now rewrite orb_true_r.
Qed.
Lemma uint_pos st z s tail : jgram false (JUInt z) s -> valuePos st (s ++ tail) -> follow tail ->
  exists st1, jsonReadPush st TNumber false = Ok st1 /\ jsonReadNumber st1 = Ok (false, z, after st tail).
Proof.
  intros Hg Hv Hf. inversion Hg; subst. exists (pushed st (s ++ tail) TNumber). split; [eapply valuePos_push; [exact Hv|eapply digits_head; eassumption]|].
  rewrite (number_uint _ s z tail); auto.
Qed.
Lemma reads_uint64 z : reads jsonReadUInt64 (JUInt z) z.
Proof. intros st s tail Hg Hv Hf. destruct (uint_pos _ _ _ _ Hg Hv Hf) as (st1 & E1 & E2). unfold jsonReadUInt64. rewrite E1. cbn [bind]. rewrite E2. reflexivity. Qed.
Lemma reads_int64 z : z < 2 ^ 63 -> reads jsonReadInt64 (JUInt z) z.
Proof.
  intros Hz st s tail Hg Hv Hf. destruct (uint_pos _ _ _ _ Hg Hv Hf) as (st1 & E1 & E2). unfold jsonReadInt64. rewrite E1. cbn [bind]. rewrite E2. cbn [bind].
  unfold two63. change (2 ^ 63) with 9223372036854775808 in Hz. replace (9223372036854775808 - 1 <? z) with false by lia. reflexivity.
Qed.
Lemma reads_uint z : z < 2 ^ 32 -> reads jsonReadUInt (JUInt z) z.
Proof.
  intros Hz st s tail Hg Hv Hf. destruct (uint_pos _ _ _ _ Hg Hv Hf) as (st1 & E1 & E2). unfold jsonReadUInt. rewrite E1. cbn [bind]. rewrite E2. cbn [bind].
  unfold two32. change (2 ^ 32) with 4294967296 in Hz. replace (4294967296 - 1 <? z) with false by lia. reflexivity.
Qed.
Lemma reads_bool b : reads jsonReadBool (JBool b) b.
Proof.
  intros st s tail Hg Hv Hf. unfold jsonReadBool. inversion Hg; subst; (rewrite (valuePos_push _ _ TBool Hv) by (split; [cbn; split; [reflexivity|lia]|reflexivity])); reflexivity.
Qed.
Lemma reads_str s : reads jsonReadStr (JStr s) (Some s).
Proof.
  intros st t tail Hg Hv Hf. inversion Hg as [| | | | |s0 t0 Hc| | | |]; subst.
  assert (Hh : headOk ((34 :: t0 ++ [34]) ++ tail) TString) by (split; [cbn; split; [reflexivity|lia]|reflexivity]).
  unfold jsonReadStr. destruct (valuePos_type _ _ _ Hv Hh) as [E Hv']. rewrite E. cbn [bind]. rewrite (valuePos_push _ _ TString Hv' Hh). cbn [bind]. rewrite pushed_ws.
  cbn [pushed jtypeScalar after jtext app jnext bind]. rewrite <- app_assoc. cbn [app]. rewrite (chars_body _ _ _ Hc). reflexivity.
Qed.
Lemma reads_null : reads jsonReadStr JNull None.
Proof.
  intros st t tail Hg Hv Hf. inversion Hg; subst.
  assert (Hh : headOk ([110;117;108;108] ++ tail) TNull) by (split; [cbn; split; [reflexivity|lia]|reflexivity]).
  unfold jsonReadStr. destruct (valuePos_type _ _ _ Hv Hh) as [E Hv']. rewrite E. cbn [bind]. unfold jsonReadNull. rewrite (valuePos_push _ _ TNull Hv' Hh). reflexivity.
Qed.
Lemma reads_strOpt o : reads jsonReadStr (varStrOpt o) o.
Proof. destruct o as [s|]; [apply reads_str|apply reads_null]. Qed.
Lemma reads_string s : reads readString (JStr s) s.
Proof. intros st t tail Hg Hv Hf. unfold readString. rewrite (reads_str s st t tail Hg Hv Hf). reflexivity. Qed.
Lemma reads_mode m : 0 <= m < 2 ^ 32 -> reads readMode (JStr (cvtModeToZ m)) m.
Proof.
  intros Hm st t tail Hg Hv Hf. unfold readMode. rewrite (reads_string _ st t tail Hg Hv Hf). cbn [bind].
  assert (E : cvtZToMode (cvtModeToZ m) = Ok m).
  { apply cvtZToUInt_spec; [lia|]. split; [|exact (proj2 Hm)]. apply digits_unsigned. apply digitsIs_pad; [lia|]. apply numText_is; [lia|].
    unfold two64. change (2 ^ 32) with 4294967296 in Hm. lia. }
  rewrite E. reflexivity.
Qed.
Lemma reads_uintStr z : 0 <= z < 2 ^ 32 -> reads readUIntStr (JStr (cvtUIntToZ z)) z.
Proof.
  intros Hm st t tail Hg Hv Hf. unfold readUIntStr. rewrite (reads_string _ st t tail Hg Hv Hf). cbn [bind].
  assert (E : cvtZToUInt 10 (cvtUIntToZ z) = Ok z).
  { apply cvtZToUInt_spec; [lia|]. split; [|exact (proj2 Hm)]. apply digits_unsigned. apply numText_is; [lia|]. unfold two64. change (2 ^ 32) with 4294967296 in Hm. lia. }
  rewrite E. reflexivity.
Qed.
Lemma ownerGet_var o : manifestOwnerGet (manifestOwnerVar o) = Ok o.
Proof. destruct o; reflexivity. Qed.
Lemma reads_owner o : reads readOwner (manifestOwnerVar o) o.
Proof. intros st t tail Hg Hv Hf. unfold readOwner. rewrite (reads_var _ st t tail Hg Hv Hf). cbn [bind]. rewrite ownerGet_var. reflexivity. Qed.
Lemma reads_sha1 sc b : Forall (fun c => 0 <= c < 256) b -> length b = 20%nat -> reads (readSha1 sc) (JStr (encodeHex b)) b.
Proof.
  intros Hb Hl st t tail Hg Hv Hf. unfold readSha1. rewrite (reads_string _ st t tail Hg Hv Hf). cbn [bind]. rewrite decodeHex_encode by exact Hb. cbn [bind].
  rewrite Hl. cbn [Nat.ltb Nat.leb HASH_TYPE_SHA1_SIZE]. unfold HASH_TYPE_SHA1_SIZE. rewrite <- Hl, firstn_all. destruct (Nat.ltb_spec (length b) (length b)); [lia|reflexivity].
Qed.
Lemma reads_json v s : jsonFromVar v = Ok s -> reads readJson v s.
Proof. intros E st t tail Hg Hv Hf. unfold readJson. rewrite (reads_var _ st t tail Hg Hv Hf). cbn [bind]. rewrite E. reflexivity. Qed.
(** A value on a line of its own. *)
Lemma reads_new {A} (rd : jread -> res (A * jread)) v a s : reads rd v a -> jgram false v s -> exists st, rd (jsonReadNew s) = Ok (a, st).
Proof.
  intros Hr Hg. eexists. apply (Hr (jsonReadNew s) s [] Hg); [|exact I]. split; [reflexivity|]. cbn. split; [reflexivity|]. exists []. split; [constructor|]. now rewrite app_nil_r.
Qed.
Lemma reads_text {A} (rd : jread -> res (A * jread)) v a : reads rd (canon v) a -> scalarOk v -> exists st, rd (jsonReadNew (vtext v)) = Ok (a, st).
Proof. intros Hr Hs. eapply reads_new; [exact Hr|now apply vtext_gram]. Qed.

(** * Objects *)

(** One value of an object as it is read: a scalar, or a text [s] of the value [v]. *)
Inductive fieldIs : wval -> jvar -> str -> Prop :=
| fi_var v : scalarOk v -> fieldIs (WVar v) (canon v) (vtext v)
| fi_json v s : jgram false v s -> ~ In 10 s -> fieldIs (WJson s) v s.
Lemma field_gram w v s : fieldIs w v s -> jgram false v s.
Proof. destruct 1; [now apply vtext_gram|assumption]. Qed.
Lemma field_no10 w v s : fieldIs w v s -> ~ In 10 s.
Proof. destruct 1; [now apply vtext_no10|assumption]. Qed.

(** The fields of an object in order, those that are left out being None. *)
Definition present {A} (e : list (str * option A)) : list (str * A) := flat_map (fun p => opt (snd p) (fun v => (fst p, v))) e.
Lemma present_cons {A} k (o : option A) e : present ((k, o) :: e) = opt o (fun v => (k, v)) ++ present e. Proof. reflexivity. Qed.
Lemma present_app {A} (a b : list (str * option A)) : present (a ++ b) = present a ++ present b. Proof. apply flat_map_app. Qed.
Definition keyLt (key : str) (k : str) : Prop := strncmpKey key k = Lt.
Lemma present_keys {A} (e : list (str * option A)) k : In k (map fst (present e)) -> In k (map fst e).
Proof.
  induction e as [|[k' o] e IH]; [intros []|]. rewrite present_cons, map_app. intros H. apply in_app_or in H as [H|H]; [left|right; auto].
  destruct o; cbn in H; [destruct H as [H|[]]; exact H|destruct H].
Qed.
Lemma present_sorted {A} (e : list (str * option A)) : StronglySorted slt (map fst e) -> StronglySorted slt (map fst (present e)).
Proof.
  induction e as [|[k o] e IH]; intros H; [constructor|]. cbn [map fst] in H. inversion H as [|? ? Hs Hf]; subst. rewrite present_cons, map_app. destruct o as [v|]; cbn [opt map app fst]; [|auto].
  constructor; [auto|]. rewrite Forall_forall in *. intros x Hx. apply Hf, present_keys, Hx.
Qed.

Definition keyOk (k : str) : Prop := jkeyText k /\ (length k < 67)%nat /\ ~ In 10 k.
Definition objText (m : list (str * str)) : str :=
  (fix go (l : list (str * str)) : str := match l with [] => [] | [(k, s)] => (34 :: k ++ [34]) ++ 58 :: s | (k, s) :: r => (34 :: k ++ [34]) ++ 58 :: s ++ 44 :: go r end) m.
Lemma objText_cons k s p r : objText ((k, s) :: p :: r) = (34 :: k ++ [34]) ++ 58 :: s ++ 44 :: objText (p :: r).
Proof. reflexivity. Qed.

(** The fields [l] have the values and texts [m]. *)
Definition fieldsAre (l : list (str * wval)) (m : list (str * (jvar * str))) : Prop :=
  Forall2 (fun p q => fst p = fst q /\ fieldIs (snd p) (fst (snd q)) (snd (snd q))) l m.
Definition texts (m : list (str * (jvar * str))) : list (str * str) := map (fun q => (fst q, snd (snd q))) m.
Definition values (m : list (str * (jvar * str))) : list (str * jvar) := map (fun q => (fst q, fst (snd q))) m.

Lemma field_write w k v x s first last r : fieldIs v x s -> keyOk k -> wcomplete w = false -> wkey w = false -> wstack w = (true, first, last) :: r ->
  (last = [] \/ slt last k) ->
  writeField w (k, v) = Ok (mkJwrite (wtext w ++ (if first then [44] else []) ++ (34 :: k ++ [34]) ++ 58 :: s) ((true, true, k) :: r) false false).
Proof.
  intros Hf (Hk & Hl & _) Hc Hw Es Hlt. unfold writeField. cbn [fst snd]. rewrite (key_w _ _ _ _ _ Hc Hw Es Hl Hlt). cbn [bind].
  set (w1 := mkJwrite _ _ _ _).
  assert (E : wafter w1 s = mkJwrite (wtext w ++ (if first then [44] else []) ++ (34 :: k ++ [34]) ++ 58 :: s) ((true, true, k) :: r) false false).
  { unfold wafter, wcomma, w1. cbn [wtext wstack wmark]. f_equal. rewrite <- !app_assoc. cbn [app]. rewrite <- !app_assoc. reflexivity. }
  destruct Hf as [v Hs|v s Hg Hn].
  - rewrite (vtext_write v w1 Hs) by (split; reflexivity). now rewrite E.
  - rewrite (scalar_w w1 s TString) by (try reflexivity; split; reflexivity). now rewrite E.
Qed.
Lemma fields_write l m : fieldsAre l m -> Forall (fun p => keyOk (fst p)) l -> l <> [] -> StronglySorted slt (map fst l) ->
  forall w first last r, wcomplete w = false -> wkey w = false -> wstack w = (true, first, last) :: r ->
    (last = [] \/ match l with [] => True | p :: _ => slt last (fst p) end) ->
    exists k, writeFields w l = Ok (mkJwrite (wtext w ++ (if first then [44] else []) ++ objText (texts m)) ((true, true, k) :: r) false false).
Proof.
  intros H. induction H as [|[k v] [k' [x s]] l m Hp Hl IH]; intros Hk Hne Hs w first last r Hc Hw Es Hlt; [congruence|]. cbn [fst snd] in *. destruct Hp as [<- Hf].
  inversion Hk as [|? ? Hk0 Hk']; subst. inversion Hs as [|? ? Hs' Hall]; subst. cbn [writeFields fst snd] in *.
  rewrite (field_write _ _ _ _ _ _ _ _ Hf Hk0 Hc Hw Es Hlt). cbn [bind]. destruct Hl as [|[k2 v2] [k2' [x2 s2]] l m Hp2 Hl].
  - exists k. reflexivity.
  - match goal with |- exists _, writeFields ?w1 _ = _ => destruct (IH Hk' ltac:(discriminate) Hs' w1 true k r eq_refl eq_refl eq_refl) as [kk Ek] end.
    + right. cbn [map fst] in Hall. now inversion Hall.
    + exists kk. rewrite Ek. cbn [wtext app]. f_equal. f_equal. cbn [texts map fst snd]. rewrite objText_cons. rewrite <- !app_assoc. cbn [app]. rewrite <- !app_assoc. reflexivity.
Qed.
Lemma object_text l m : fieldsAre l m -> Forall (fun p => keyOk (fst p)) l -> StronglySorted slt (map fst l) ->
  jsonObject l = Ok (123 :: objText (texts m) ++ [125]).
Proof.
  intros Hf Hk Hs. unfold jsonObject. cbn [jsonWriteBegin jsonWritePush jsonWriteNew wcomplete wstack jtypeScalar bind].
  destruct l as [|p l].
  - inversion Hf; subst. reflexivity.
  - set (w := wcat _ _). destruct (fields_write _ _ Hf Hk ltac:(discriminate) Hs w false [] [] eq_refl eq_refl eq_refl (or_introl eq_refl)) as [k E].
    unfold w in *. cbn [bind]. rewrite E. cbn [bind]. reflexivity.
Qed.
Lemma members_gram l m : fieldsAre l m -> Forall (fun p => keyOk (fst p)) l -> l <> [] -> jmembers false (values m) (objText (texts m)).
Proof.
  intros H. induction H as [|[k v] [k' [x s]] l m Hp Hl IH]; intros Hk Hne; [congruence|]. cbn [fst snd] in *. destruct Hp as [<- Hf].
  inversion Hk as [|? ? Hk0 Hk']; subst. cbn [fst] in Hk0. pose proof (field_gram _ _ _ Hf) as Hg. destruct Hl as [|[k2 v2] [k2' [x2 s2]] l m Hp2 Hl].
  - cbn [values texts map fst snd]. pose proof (m_one false k x s [] [] [] [] (proj1 Hk0) Hg ltac:(constructor) ltac:(constructor) ltac:(constructor) ltac:(constructor)) as K.
    cbn [app] in K. rewrite app_nil_r in K. exact K.
  - specialize (IH Hk' ltac:(discriminate)). cbn [values texts map fst snd] in *.
    rewrite objText_cons. exact (m_more false k x s [] [] [] [] _ _ (proj1 Hk0) Hg ltac:(constructor) ltac:(constructor) ltac:(constructor) ltac:(constructor) IH).
Qed.
Lemma fields_keys l m : fieldsAre l m -> map fst (values m) = map fst l.
Proof. intros H. induction H as [|[k v] [k' [x s]] l m Hp Hl IH]; [reflexivity|]. cbn [fst snd] in *. destruct Hp as [<- _]. cbn [values map fst]. f_equal. exact IH. Qed.
Lemma sorted_nodup l : StronglySorted slt l -> NoDup l.
Proof.
  induction 1 as [|a l Hs IH Hf]; constructor; [|exact IH]. intros Hi. rewrite Forall_forall in Hf. exact (slt_irrefl a (Hf a Hi)).
Qed.
Lemma object_gram l m : fieldsAre l m -> Forall (fun p => keyOk (fst p)) l -> StronglySorted slt (map fst l) ->
  jgram false (JObj (values m)) (123 :: objText (texts m) ++ [125]).
Proof.
  intros Hf Hk Hs. destruct l as [|p l].
  - inversion Hf; subst. apply (g_obj0 false []). constructor.
  - apply g_obj; [eapply members_gram; [exact Hf|exact Hk|discriminate]|]. rewrite (fields_keys _ _ Hf). now apply sorted_nodup.
Qed.
Lemma objText_no10 l m : fieldsAre l m -> Forall (fun p => keyOk (fst p)) l -> ~ In 10 (objText (texts m)).
Proof.
  intros H. induction H as [|[k v] [k' [x s]] l m Hp Hl IH]; intros Hk; [intros []|]. cbn [fst snd] in *. destruct Hp as [<- Hf].
  inversion Hk as [|? ? Hk0 Hk']; subst. cbn [fst] in Hk0. destruct Hk0 as (_ & _ & Hn). pose proof (field_no10 _ _ _ Hf) as Hs.
  assert (Hq : ~ In 10 ((34 :: k ++ [34]) ++ 58 :: s)).
  { intros Hi. apply in_app_or in Hi as [[Hi|Hi]|[Hi|Hi]]; [discriminate| |discriminate|auto]. apply in_app_or in Hi as [Hi|[Hi|[]]]; [auto|discriminate]. }
  destruct Hl as [|[k2 v2] [k2' [x2 s2]] l m Hp2 Hl]; [exact Hq|]. cbn [texts map fst snd]. rewrite objText_cons.
  replace ((34 :: k ++ [34]) ++ 58 :: s ++ 44 :: objText _) with (((34 :: k ++ [34]) ++ 58 :: s) ++ 44 :: objText ((k2', s2) :: texts m)) by (rewrite <- !app_assoc; reflexivity).
  intros Hi. apply in_app_or in Hi as [Hi|[Hi|Hi]]; [auto|discriminate|]. exact (IH Hk' Hi).
Qed.
Definition lowerKey (k : str) : Prop := exists c r, k = c :: r /\ 97 <= c <= 122.
(** An object of such fields: its text, which can be the value of a line. *)
Lemma object_ok l m : fieldsAre l m -> Forall (fun p => keyOk (fst p) /\ lowerKey (fst p)) l -> StronglySorted slt (map fst l) ->
  exists s, jsonObject l = Ok s /\ valueText s /\ exists st, jsonReadObjectBegin (jsonReadNew s) = Ok st /\ objPos (values m) st [].
Proof.
  intros Hf Hk Hs. assert (Hk1 : Forall (fun p : str * wval => keyOk (fst p)) l) by (eapply Forall_impl; [|exact Hk]; intros ? [H _]; exact H).
  eexists. split; [exact (object_text l m Hf Hk1 Hs)|]. pose proof (object_gram _ _ Hf Hk1 Hs) as Hg. split.
  - exists (JObj (values m)). split; [exact Hg|]. split.
    + cbn [lineValue]. rewrite Forall_forall in *. intros [k v] Hi. cbn [fst].
      assert (Hin : In k (map fst l)) by (rewrite <- (fields_keys _ _ Hf); apply (in_map fst) in Hi; exact Hi).
      apply in_map_iff in Hin as ([k0 v0] & E & Hin). cbn [fst] in E. subst k0. exact (proj2 (Hk _ Hin)).
    + intros [Hi|Hi]; [discriminate|]. apply in_app_or in Hi as [Hi|[Hi|[]]]; [|discriminate]. exact (objText_no10 _ _ Hf Hk1 Hi).
  - destruct (begin_objPos _ _ _ [] eq_refl Hg) as (st & E & Ho). rewrite app_nil_r in E. eauto.
Qed.

(** * Reading the fields in order *)
Lemma objPos_front l st rest : objPos l st rest -> objPos l (jsonReadConsumeWhiteSpace st) rest.
Proof.
  intros Ho. unfold jsonReadConsumeWhiteSpace, setText. pose proof (objPos_ws _ _ _ Ho) as K. destruct Ho as (first & r & H). destruct l.
  - destruct H as (-> & -> & _). exact K.
  - destruct H as (s & _ & -> & -> & _). exact K.
Qed.
Lemma expect_hit key v l st rest : objPos ((key, v) :: l) st rest ->
  exists st' s tail, jsonReadKeyExpect st key = Ok (true, st') /\ jgram false v s /\ valuePos st' (s ++ tail) /\ follow tail /\ objPos l (after st' tail) rest.
Proof.
  intros Ho. apply objPos_front in Ho. unfold jsonReadKeyExpect. cbv zeta. set (st0 := jsonReadConsumeWhiteSpace st) in *. unfold loopFuel. cbn [keyExpectLoop].
  destruct (objPos_cons _ _ _ _ _ Ho) as (first & r & w & w1 & w2 & s & w' & tail & Hk & Hg & Hw & Hw1 & Hw2 & Hw' & Hf & He & Hl).
  destruct (member_key _ _ _ _ _ _ _ Hk Hw Hw1 He) as (st1 & E1 & E2 & Et & Es & Ek & Ec).
  rewrite E1. cbn [bind]. rewrite E2. cbn [bind]. unfold jsonReadKeyZN. rewrite Et. cbn [jnext bind]. rewrite (key_body _ _ Hk). cbn [bind].
  rewrite (colon_ok _ _ Hw1). cbn [bind]. rewrite cmp_refl.
  exists (setText st1 (w2 ++ s ++ w' ++ tail)), s, (w' ++ tail). split; [reflexivity|]. split; [exact Hg|]. split; [|split; [exact Hf|]].
  - unfold valuePos. cbn. rewrite Es. split; [exact Ec|]. split; [exact Ek|]. exists w2. split; [exact Hw2|reflexivity].
  - replace (after (setText st1 (w2 ++ s ++ w' ++ tail)) (w' ++ tail)) with (endState true r true (w' ++ tail)); [exact Hl|].
    unfold after, endState, setText. cbn. rewrite Es. reflexivity.
Qed.
Lemma expect_miss key l st rest : objPos l st rest -> match l with [] => True | p :: _ => keyLt key (fst p) end ->
  exists st', jsonReadKeyExpect st key = Ok (false, st') /\ objPos l st' rest.
Proof.
  intros Ho Hm. apply objPos_front in Ho. unfold jsonReadKeyExpect. cbv zeta. set (st0 := jsonReadConsumeWhiteSpace st) in *. unfold loopFuel. cbn [keyExpectLoop].
  destruct l as [|[k v] l].
  - destruct Ho as (first & r & Hc & Hk & Es & w & Hw & Et).
    assert (E : st0 = endState true r first (w ++ 125 :: rest)) by (destruct st0; cbn in *; subst; reflexivity).
    rewrite E, (end_type true first r w rest Hw). cbn [bind]. exists (endState true r first (125 :: rest)). split; [reflexivity|].
    exists first, r. cbn. split; [reflexivity|]. split; [reflexivity|]. split; [reflexivity|]. exists []. split; [constructor|reflexivity].
  - destruct (objPos_cons _ _ _ _ _ Ho) as (first & r & w & w1 & w2 & s & w' & tail & Hk & Hg & Hw & Hw1 & Hw2 & Hw' & Hf & He & Hl).
    destruct (member_key _ _ _ _ _ _ _ Hk Hw Hw1 He) as (st1 & E1 & E2 & Et & Es & Ek & Ec).
    rewrite E1. cbn [bind]. rewrite E2. cbn [bind]. unfold jsonReadKeyZN. rewrite Et. cbn [jnext bind]. rewrite (key_body _ _ Hk). cbn [bind].
    rewrite (colon_ok _ _ Hw1). cbn [bind]. cbn [fst] in Hm. unfold keyLt in Hm. rewrite Hm. eexists. split; [reflexivity|].
    change (jcomplete (setText st1 (w2 ++ s ++ w' ++ tail))) with (jcomplete st1). rewrite Ec.
    change (jtext (jsonReadConsumeWhiteSpace st0)) with (jws (jtext st0)). change (jstack (jsonReadConsumeWhiteSpace st0)) with (jstack st0). now apply objPos_ws.
Qed.
Lemma present_head {A} key (e : list (str * option A)) : Forall (keyLt key) (map fst e) -> match present e with [] => True | p :: _ => keyLt key (fst p) end.
Proof.
  intros H. destruct (present e) as [|[k v] l] eqn:E; [exact I|]. rewrite Forall_forall in H. apply H. cbn [fst]. apply present_keys. rewrite E. now left.
Qed.
(** The next field may be there; nothing else is skipped. *)
Lemma expectKey_ok {A} (rd : jread -> res (A * jread)) key (o : option jvar) (a : option A) e st rest :
  objPos (present ((key, o) :: e)) st rest -> Forall (keyLt key) (map fst e) ->
  match o, a with Some v, Some x => reads rd v x | None, None => True | _, _ => False end ->
  exists st', expectKey st key rd = Ok (a, st') /\ objPos (present e) st' rest.
Proof.
  intros Ho Hk Hr. unfold expectKey. rewrite present_cons in Ho. destruct o as [v|], a as [x|]; try destruct Hr; cbn [opt app] in Ho.
  - destruct (expect_hit _ _ _ _ _ Ho) as (st' & s & tail & E & Hg & Hv & Hf & Ho'). rewrite E. cbn [bind]. rewrite (Hr st' s tail Hg Hv Hf). cbn [bind]. eauto.
  - destruct (expect_miss key _ _ _ Ho (present_head _ _ Hk)) as (st' & E & Ho'). rewrite E. cbn [bind]. eauto.
Qed.
Lemma requireKey_ok {A} (rd : jread -> res (A * jread)) key v a e st rest :
  objPos (present ((key, Some v) :: e)) st rest -> reads rd v a -> exists st', requireKey st key rd = Ok (a, st') /\ objPos (present e) st' rest.
Proof.
  intros Ho Hr. unfold requireKey, jsonReadKeyRequire. rewrite present_cons in Ho. cbn [opt app] in Ho.
  destruct (expect_hit _ _ _ _ _ Ho) as (st' & s & tail & E & Hg & Hv & Hf & Ho'). rewrite E. cbn [bind]. rewrite (Hr st' s tail Hg Hv Hf). eauto.
Qed.
