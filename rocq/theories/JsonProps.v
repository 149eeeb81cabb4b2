(** C49, C50: JSON is read back as it was written, validation, and reading the fields of an object. *)
From Verif Require Import Base Str ConvertModel NumModel NumSpec NumProof JsonModel JsonSpec JsonProof JsonProof2 JsonProof3 JsonProof4 JsonProof5 JsonProof7 JsonProof8.
From Coq Require Import Sorting.Sorted.
Open Scope Z_scope.

(** Whatever may be written is written as JSON, passes validation, and is read back as the same value. *)
Theorem C49_written_is_read_back v : jwritable v ->
  exists v' s, jsonFromVar v = Ok s /\ jgram false v' s /\ jsame v v' /\ jsonToVar s = Ok v' /\ jsonValidate s = Ok tt.
Proof.
  intros H. destruct (fromVar_ok v H) as (v' & s & E & Hs & Hg). exists v', s. split; [exact E|]. split; [exact Hg|]. split; [exact Hs|]. split.
  - pose proof (toVar_ok false v' s [] [] Hg ltac:(constructor) I) as K. cbn [app] in K. rewrite app_nil_r in K. exact K.
  - pose proof (validate_ok v' s [] [] Hg ltac:(constructor) ltac:(constructor)) as K. cbn [app] in K. rewrite app_nil_r in K. exact K.
Qed.
Print Assumptions C49_written_is_read_back.

(** Every JSON text of a value is read as that value: any white space, any escapes. *)
Theorem C49_json_is_read u v s w w' : jgram u v s -> wsp w -> wsp w' -> jsonToVar (w ++ s ++ w') = Ok v.
Proof. intros Hg Hw Hw'. apply (toVar_ok u); [exact Hg|exact Hw|]. destruct Hw' as [|c w' Hc _]; [exact I|]. cbn. unfold isDigit. lia. Qed.
Print Assumptions C49_json_is_read.

(** Every JSON text without \u escapes passes validation. *)
Theorem C49_json_is_valid_partial v s w w' : jgram false v s -> wsp w -> wsp w' -> jsonValidate (w ++ s ++ w') = Ok tt.
Proof. apply validate_ok. Qed.
Print Assumptions C49_json_is_valid_partial.

(** Validation of any text at all ends: it accepts, or fails with a format error.  The error is not the one of JSON only if there are 19
    digits in a row; it runs past the end of the text only if there is a backslash in it. *)
Theorem C49_validation_ends s :
  jsonValidate s = Ok tt \/ jsonValidate s = Err EJsonFormat \/
  (jsonValidate s = Err EFormat /\ exists p d r, s = p ++ d ++ r /\ Forall (fun c => 48 <= c <= 57) d /\ (19 <= length d)%nat) \/
  (jsonValidate s = UB /\ In 92 s).
Proof.
  pose proof (validate_any s) as K. destruct (jsonValidate s) as [[]|e|]; cbn in K; [auto| |].
  - destruct K as [-> |[-> (p & d & r & E & Hd & L)]]; [auto|]. right. right. left. split; [reflexivity|]. exists p, d, r. split; [exact E|]. split; [|exact L].
    eapply Forall_impl; [|exact Hd]. unfold isDigit. cbn. intros; lia.
  - right. right. right. split; [reflexivity|]. now apply overread_92 in K.
Qed.
Print Assumptions C49_validation_ends.

(** What is accepted is not changed by what follows it: two accepted texts in front of the same text, when what follows them starts with
    neither white space nor a digit, are the same. *)
Theorem C49_valid_texts_are_delimited v1 r1 v2 r2 : jsonValidate v1 = Ok tt -> jsonValidate v2 = Ok tt ->
  (forall c, hd_error r1 = Some c -> isWs c = false /\ isDigit c = false) -> (forall c, hd_error r2 = Some c -> isWs c = false /\ isDigit c = false) ->
  r1 <> [] -> r2 <> [] -> v1 ++ r1 = v2 ++ r2 -> v1 = v2 /\ r1 = r2.
Proof. apply validate_prefix. Qed.
Print Assumptions C49_valid_texts_are_delimited.

(** The string "A" is JSON and is read as A, but it does not pass validation. *)
Theorem C49_valid_unicode_refuted : exists v s, jgram true v s /\ jsonToVar s = Ok v /\ jsonValidate s = Err EJsonFormat.
Proof.
  exists (JStr [65]), [34; 92; 117; 48; 48; 52; 49; 34]. split; [|vm_compute; auto].
  change [34; 92; 117; 48; 48; 52; 49; 34] with (34 :: ([92; 117; 48; 48; 52; 49] ++ []) ++ [34]). apply g_str. apply cs_cons; [|constructor].
  change 65 with (16 * 4 + 1). apply c_uni; [reflexivity| | |lia|lia].
  - change 52 with (48 + 4). apply dec. lia.
  - change 49 with (48 + 1). apply dec. lia.
Qed.
Print Assumptions C49_valid_unicode_refuted.
(** A comma may stand for the first quote of a string that passes validation, though this is not JSON. *)
Theorem C49_only_json_is_valid_refuted : exists s, jsonValidate s = Ok tt /\ forall u v w w', wsp w -> wsp w' -> s = w ++ v ++ w' -> forall x, ~ jgram u x v.
Proof.
  exists [44; 34]. split; [reflexivity|]. intros u v w w' Hw Hw' E x Hx.
  destruct Hw as [|c w Hc _]; [|injection E as <- _; lia]. cbn [app] in E.
  destruct Hx; cbn in E; try discriminate. 
  - destruct (digitsIs_all _ _ H) as [Hne Hall]. destruct ds; [congruence|]. injection E as <- _. inversion Hall; subst. discriminate.
Qed.
Print Assumptions C49_only_json_is_valid_refuted.
(** Two texts that make jsonReadSkipStr() and one that makes jsonReadStr() read past the end. *)
Theorem C49_no_overread_refuted : jsonValidate [34; 92] = UB /\ jsonValidate [34; 92; 117; 48; 48; 52; 49] = UB /\ jsonToVar [34; 92; 117; 48; 48] = UB.
Proof. vm_compute. auto. Qed.
Print Assumptions C49_no_overread_refuted.

(** {"a":[1,-2,"x\n"],"b":{}} and its reading. *)
Example C49_nontrivial :
  exists v, jwritable v /\ jsonFromVar v = Ok [123;34;97;34;58;91;49;44;45;50;44;34;120;92;110;34;93;44;34;98;34;58;123;125;125].
Proof.
  exists (JObj [([98], JObj []); ([97], JArr [JUInt 1; JInt (-2); JStr [120; 10]])]). split; [|vm_compute; reflexivity].
  apply w_obj; [repeat constructor; cbn; intuition discriminate|]. repeat constructor; cbn; try lia; try (intuition discriminate).
Qed.

(** Reading ascending fields from an object with ascending keys gives exactly the values they have, absent fields included, as long as no key
    of the object is a proper prefix of a field looked for. *)
Theorem C50_fields_are_read_partial l s rest keys : jgram false (JObj l) s -> StronglySorted slt (map fst l) -> StronglySorted slt keys ->
  (forall key k v t, In key keys -> In (k, v) l -> key = k ++ t -> t = []) ->
  exists st st', jsonReadObjectBegin (jsonReadNew (s ++ rest)) = Ok st /\ readFields st keys = Ok (map (kvGet l) keys, st').
Proof.
  intros Hg Hs Hk Hp. destruct (begin_objPos _ l s rest eq_refl Hg) as (st & E & Ho).
  destruct (readFields_ok keys l st rest Hs Hk) as (st' & E'); [|exact Ho|eauto].
  apply Forall_forall. intros key Hi. apply Forall_forall. intros [k v] Hi2 t Et. exact (Hp _ _ _ _ Hi Hi2 Et).
Qed.
Print Assumptions C50_fields_are_read_partial.
(** When there is such a key its value is taken for the field: "ab" is looked for in {"a":1}. *)
Theorem C50_fields_are_read_refuted : exists l s st, jgram false (JObj l) s /\ StronglySorted slt (map fst l) /\ kvGet l [97; 98] = None /\
  jsonReadObjectBegin (jsonReadNew s) = Ok st /\ exists st', readFields st [[97; 98]] = Ok ([Some (JUInt 1)], st').
Proof.
  exists [([97], JUInt 1)], [123; 34; 97; 34; 58; 49; 125]. eexists. split; [|split; [repeat constructor|split; [reflexivity|split; [reflexivity|]]]].
  - apply (g_obj false [([97], JUInt 1)] [34; 97; 34; 58; 49]); [|repeat constructor; cbn; tauto].
    apply (m_one false [97] (JUInt 1) [49] [] [] [] []); try constructor; cbn; try lia; try (intuition discriminate).
    change 49 with (48 + 1). apply ds_one; [apply dec|]; lia.
  - eexists. vm_compute. reflexivity.
Qed.
Print Assumptions C50_fields_are_read_refuted.

(** The typed readers of integers: the value when it fits the type, a JSON error otherwise. *)
(** A key that is read is a text before a quote, without quotes and escapes: keys with escapes are refused. *)
Theorem C50_key_text : forall st k st', jsonReadKey st = Ok (k, st') -> jkeyText k /\ exists a b, jtext st = a ++ k ++ 34 :: b.
Proof.
  intros st k st' H. unfold jsonReadKey in H. destruct (jsonReadPush st TString true) as [s1| |] eqn:E; try discriminate. cbn [bind] in H.
  assert (Hws : forall s, exists a, s = a ++ jws s).
  { induction s as [|c r [a IH]]; [exists []; reflexivity|]. cbn. destruct (isWs c); [exists (c :: a); cbn; congruence|exists []; reflexivity]. }
  assert (Hs : exists a, jtext st = a ++ jtext s1).
  { unfold jsonReadPush in E. destruct (jcomplete st); [discriminate|]. destruct (jsonReadTypeNextIgnoreComma st) as [[ta s0]| |] eqn:E0; try discriminate. cbn [bind] in E.
    assert (H0 : jtext s0 = jws (jtext st) \/ jtext s0 = jws (jws (jtext st))).
    { unfold jsonReadTypeNextIgnoreComma, jsonReadTypeNext, jsonReadConsumeWhiteSpace, setText in E0. cbn [jtext jstack jkey jcomplete] in E0.
      destruct (jws (jtext st)) as [|c r]; [discriminate|].
      assert (HE : forall x s2, (let* t := jtypeAt x in Ok (t, s2)) = Ok (ta, s0) -> s2 = s0).
      { intros x s2 H0. destruct (jtypeAt x); try discriminate. cbn [bind] in H0. congruence. }
      destruct c as [|p|p]; try (apply HE in E0; subst s0; right; reflexivity).
      do 6 (try (destruct p as [p|p|]; try (apply HE in E0; subst s0; right; reflexivity))); apply HE in E0; subst s0; left; reflexivity. }
    assert (Hw0 : exists a, jtext st = a ++ jtext s0).
    { destruct (Hws (jtext st)) as [a Ha]. destruct H0 as [->| ->]; [exists a; exact Ha|]. destruct (Hws (jws (jtext st))) as [b Hb]. exists (a ++ b). rewrite <- app_assoc, <- Hb. exact Ha. }
    destruct Hw0 as [a Ha]. destruct (negb (jtypeEqb ta TString)); [discriminate|]. destruct (jstack s0) as [|[obj first] r].
    - cbn in E. injection E as <-. exists a. exact Ha.
    - destruct (jkey s0); [discriminate|]. cbn [bind] in E. destruct (first && _).
      + destruct (jtext s0) as [|c t] eqn:Et; [discriminate|]. destruct (Z.eq_dec c 44) as [-> |Hc].
        * cbn [bind] in E. injection E as <-. cbn. destruct (Hws t) as [b Hb]. exists (a ++ 44 :: b). rewrite Ha, Hb at 1. rewrite <- app_assoc. reflexivity.
        * exfalso. clear - E Hc. destruct c as [|p|p]; try discriminate. do 6 (try (destruct p as [p|p|]; try discriminate)). elim Hc. reflexivity.
      + cbn [bind] in E. injection E as <-. exists a. exact Ha. }
  unfold jsonReadKeyZN in H. destruct (jtext s1) as [|c0 t0]; cbn [jnext bind] in H; [discriminate|].
  destruct (keyBody t0) as [[k0 s2]| |] eqn:Ek; try discriminate. cbn [bind] in H. destruct (jsonReadColon s2) as [s3| |]; try discriminate. cbn in H. injection H as <- _.
  assert (HK : forall s k r, keyBody s = Ok (k, r) -> jkeyText k /\ s = k ++ 34 :: r).
  { clear. induction s as [|c s IH]; intros k r H; cbn in H; [discriminate|]. destruct (Z.eqb_spec c 34) as [-> |H34].
    - injection H as <- <-. split; [split; intros []|reflexivity].
    - destruct (Z.eqb_spec c 92) as [-> |H92]; [discriminate|]. destruct (keyBody s) as [[k1 r1]| |]; try discriminate. cbn in H. injection H as <- <-.
      destruct (IH _ _ eq_refl) as [[A B] ->]. split; [|reflexivity]. split; intros [Hc|Hc]; contradiction. }
  apply HK in Ek. destruct Ek as [Hk ->]. split; [exact Hk|]. destruct Hs as [a Ha]. rewrite Ha. exists (a ++ [c0]), s2. rewrite <- app_assoc. reflexivity.
Qed.
Print Assumptions C50_key_text.
Theorem C50_integers_fit v s w rest : (exists z, v = JInt z \/ v = JUInt z) -> jgram false v s -> wsp w -> follow rest ->
  let z := match v with JInt z | JUInt z => z | _ => 0 end in
  let neg := match v with JInt _ => true | _ => false end in
  let st := jsonReadNew (w ++ s ++ rest) in
  let ok lo hi r := r = if (lo <=? z) && (z <=? hi) && (negb neg || (lo <? 0)) then Ok (z, after st rest) else Err EJsonFormat in
  ok (- 2 ^ 31) (2 ^ 31 - 1) (jsonReadInt st) /\ ok (- 2 ^ 63) (2 ^ 63 - 1) (jsonReadInt64 st) /\
  ok 0 (2 ^ 32 - 1) (jsonReadUInt st) /\ ok 0 (2 ^ 64 - 1) (jsonReadUInt64 st).
Proof.
  intros Hv Hg Hw Hf z neg st ok.
  assert (Hp : jsonReadPush st TNumber false = Ok (after st (s ++ rest))).
  { assert (Hh : headOk (s ++ rest) TNumber).
    { destruct Hv as (z0 & [-> | ->]); inversion Hg; subst; [split; [split; [reflexivity|discriminate]|reflexivity]|eapply digits_head; eassumption]. }
    rewrite (valuePos_push st (s ++ rest) TNumber); [reflexivity| |exact Hh]. unfold valuePos. cbn. split; [reflexivity|]. split; [reflexivity|]. exists w. auto. }
  assert (Hn : jsonReadNumber (after st (s ++ rest)) = Ok (neg, z, after st rest)).
  { destruct Hv as (z0 & [-> | ->]); inversion Hg; subst; unfold neg, z.
    - exact (number_int (after st ((45 :: ds) ++ rest)) _ _ rest H0 H1 H2 Hf eq_refl).
    - exact (number_uint (after st (s ++ rest)) _ _ rest H0 H1 H2 Hf eq_refl). }
  assert (Hz : if neg then - 2 ^ 63 <= z <= 0 else 0 <= z < 2 ^ 64).
  { destruct Hv as (z0 & [-> | ->]); inversion Hg; subst; unfold neg, z; (assert (0 <= v) || assert (0 <= z0)); try (eapply (digitsIs_nonneg 10); [lia|eassumption]); lia. }
  unfold jsonReadInt, jsonReadInt64, jsonReadUInt, jsonReadUInt64. rewrite Hp. cbn [bind]. rewrite Hn. cbn [bind].
  unfold ok, two31, two32, two63. change (2 ^ 31) with 2147483648. change (2 ^ 32) with 4294967296. change (2 ^ 63) with 9223372036854775808 in *.
  change (2 ^ 64) with 18446744073709551616 in *. clearbody neg z. clear -Hz.
  destruct neg; cbn [negb orb andb]; (split; [|split; [|split]]);
    match goal with
    | |- (if ?a then _ else _) = (if ?b then _ else _) => replace a with (negb b) by lia; destruct b; reflexivity
    | |- _ = (if ?b then _ else _) => (replace b with true by lia; reflexivity) || (replace b with false by lia; reflexivity)
    end.
Qed.
Print Assumptions C50_integers_fit.

(** {"a":1,"c":2}: the fields b and c. *)
Example C50_nontrivial : exists st st', jsonReadObjectBegin (jsonReadNew [123;34;97;34;58;49;44;34;99;34;58;50;125]) = Ok st /\
  readFields st [[98]; [99]] = Ok ([None; Some (JUInt 2)], st').
Proof. eexists. eexists. split; [reflexivity|]. vm_compute. reflexivity. Qed.
