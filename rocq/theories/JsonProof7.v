From Verif Require Import Base Str ConvertModel NumModel NumSpec NumProof JsonModel JsonSpec JsonProof JsonProof2 JsonProof3 JsonProof4 JsonProof5 JsonProof6.
From Coq Require Import Permutation.
Open Scope Z_scope.

(** * No earlier '=' is taken for the separator (continued) *)
Lemma skipBody_quote n : forall s r, (length s <= n)%nat -> skipBody s = Ok r -> In 34 s.
Proof.
  induction n as [|n IH]; intros s r Hn H; [destruct s; [discriminate|cbn in Hn; lia]|]. destruct s as [|c s]; [discriminate|]. cbn [skipBody length] in *.
  assert (K : forall t, suffix t s -> skipBody t = Ok r -> In 34 (c :: s)).
  { intros t Ht E. pose proof (suffix_len _ _ Ht). right. eapply suffix_in; [exact Ht|]. eapply IH; [|exact E]. lia. }
  destruct (Z.eqb_spec c 34); [now left|]. destruct (c =? 92); [|apply (K s); [apply suffix_refl|exact H]].
  destruct s as [|e r1]; [discriminate|]. destruct (e =? 117); [|apply (K r1); [apply suffix_cons|exact H]].
  destruct r1 as [|a [|b [|x [|d r2]]]]; try discriminate. destruct (_ && _); [|discriminate]. destruct r2 as [|y r3]; [discriminate|].
  apply (K r3); [exists [e;a;b;x;d;y]; reflexivity|exact H].
Qed.
Lemma skipBody_plain x r : ~ In 34 x -> ~ In 92 x -> skipBody (x ++ 34 :: r) = Ok r.
Proof.
  induction x as [|c x IH]; intros H1 H2; [reflexivity|]. cbn [app skipBody]. destruct (Z.eqb_spec c 34); [exfalso; apply H1; now left|].
  destruct (Z.eqb_spec c 92); [exfalso; apply H2; now left|]. apply IH; intros H; [apply H1|apply H2]; now right.
Qed.
Lemma validate_toks s : jsonValidate s = Ok tt -> toks false s true [].
Proof. intros H. pose proof (validate_any s) as K. now rewrite H in K. Qed.
Lemma noSplit_plain p v : ~ In 34 v -> jsonValidate (p ++ 61 :: v) <> Ok tt.
Proof.
  intros Hv H. apply validate_toks in H. destruct (toks_eq _ _ _ _ H eq_refl p v eq_refl) as (r & E & _). apply Hv. exact (skipBody_quote _ _ _ (le_n _) E).
Qed.
Lemma noSplit_key p x c y : ~ In 34 x -> ~ In 92 x -> isWs c = false -> ~ In c [44; 58; 93; 125] -> jsonValidate (p ++ 61 :: x ++ 34 :: c :: y) <> Ok tt.
Proof.
  intros Hx1 Hx2 Hw Hc H. apply validate_toks in H. destruct (toks_eq _ _ _ _ H eq_refl p (x ++ 34 :: c :: y) eq_refl) as (r & E & Ht).
  rewrite skipBody_plain in E by assumption. injection E as <-. inversion Ht as [|? ? ? ? ? ? Ht1 _]; subst. inversion Ht1; subst.
  - congruence.
  - apply Hc. cbn. lia.
  - apply Hc. cbn. lia.
Qed.
Lemma last_app_cons {A} (p : list A) c s d : last (p ++ c :: s) d = last (c :: s) d.
Proof.
  induction p as [|a p IH]; [reflexivity|]. rewrite <- IH. cbn [app]. destruct p; reflexivity.
Qed.
Lemma last_ws w c : jws w = [] -> isWs (last (c :: w) 0) = true \/ w = [].
Proof.
  revert c. induction w as [|d w IH]; intros c H; [now right|]. left. cbn [jws] in H. destruct (isWs d) eqn:Ed; [|discriminate].
  destruct (IH d H) as [K| ->]; [|exact Ed]. change (last (c :: d :: w) 0) with (last (d :: w) 0). exact K.
Qed.
Lemma jws_noteq p v b o : jws (p ++ 61 :: v) = o :: b -> o <> 61 -> exists q, b = q ++ 61 :: v /\ exists p', p = p' ++ o :: q.
Proof.
  induction p as [|c p IH]; cbn; intros H Ho.
  - injection H as <- _. congruence.
  - destruct (isWs c).
    + destruct (IH H Ho) as (q & E & p' & ->). exists q. split; [exact E|]. now exists (c :: p').
    + injection H as -> <-. exists p. split; [reflexivity|]. now exists [].
Qed.
Lemma noSplit_str p b : jsonValidate (p ++ 61 :: 34 :: b ++ [34]) <> Ok tt.
Proof.
  intros H. unfold jsonValidate in H. set (s := p ++ 61 :: 34 :: b ++ [34]) in *.
  assert (El : last s 0 = 34).
  { unfold s. rewrite last_app_cons. change (61 :: 34 :: b ++ [34]) with ((61 :: 34 :: b) ++ 34 :: []). apply last_app_cons. }
  destruct (jsonReadSkip (jsonReadNew s)) as [st| |] eqn:E; try discriminate. cbn [bind] in H.
  destruct (jws (jtext st)) as [|? ?] eqn:Ew; [|discriminate]. destruct (top_last s st E) as [(c & Hc & pre & Es)|(o & b' & Es & Ho & Eb)].
  - rewrite Es, last_app_cons in El. destruct (last_ws _ c Ew) as [K|K]; [|rewrite K in El; cbn in El; congruence].
    rewrite El in K. discriminate.
  - unfold s in Es. destruct (jws_noteq _ _ _ _ Es ltac:(lia)) as (q & Eq & p' & Ep). rewrite Eq in Eb.
    destruct (skipBody_eq _ q _ _ (le_n _) Eb) as [(q' & Er & _)|Er].
    + rewrite Er in Ew. clear -Ew. induction q' as [|c q' IH]; cbn in Ew; [discriminate|]. destruct (isWs c); [auto|discriminate].
    + cbn in Er. injection Er as Er. rewrite <- Er in Ew. clear -Ew. induction b as [|c b IH]; cbn in Ew; [discriminate|].
      destruct (isWs c); [auto|discriminate].
Qed.

(** What may be the value of a line: no array, and the keys of an object start with a letter. *)
Definition iniVal (v : jvar) : Prop :=
  match v with
  | JArr _ => False
  | JObj l => Forall (fun p => exists c k, fst p = c :: k /\ 97 <= c <= 122) l
  | _ => True
  end.
Lemma iniVal_same v v' : jsame v v' -> iniVal v -> iniVal v'.
Proof.
  intros H. destruct H; cbn; auto. intros Hl. eapply Permutation_Forall in Hl; [|exact H]. clear H l.
  induction H0 as [|p q m l' [E _] _ IH]; [constructor|]. inversion Hl as [|? ? (c & k & Ep & Hc) Hl']; subst.
  constructor; [exists c, k; split; [exact (eq_trans (eq_sym E) Ep)|exact Hc]|auto].
Qed.
Lemma isDigit_no34 ds : Forall (fun c => isDigit c = true) ds -> ~ In 34 ds.
Proof. intros H Hi. rewrite Forall_forall in H. apply H in Hi. discriminate. Qed.
Lemma wsp_no w c : wsp w -> In c w -> isWs c = true.
Proof. intros H Hi. unfold wsp in H. rewrite Forall_forall in H. apply H in Hi. unfold isWs. lia. Qed.
Theorem noSplit u v s : jgram u v s -> iniVal v -> forall p, jsonValidate (p ++ 61 :: s) <> Ok tt.
Proof.
  intros Hg Hv p. inversion Hg; subst; try (apply noSplit_plain; cbn; lia).
  - apply noSplit_plain, isDigit_no34. eapply digitsIs_all; eassumption.
  - apply noSplit_plain. intros [H2|H2]; [discriminate|]. revert H2. apply isDigit_no34. eapply digitsIs_all; eassumption.
  - apply noSplit_str.
  - destruct Hv.
  - destruct Hv.
  - apply noSplit_plain. intros [H2|H2]; [discriminate|]. apply in_app_or in H2 as [H2|[H2|[]]]; [|discriminate]. eapply wsp_no in H2; [|eassumption]. discriminate.
  - assert (K : exists w k r, s0 = w ++ 34 :: k ++ r /\ wsp w /\ exists c k', k = c :: k' /\ 97 <= c <= 122).
    { match goal with H : jmembers _ _ _ |- _ => destruct H end; cbn in Hv; inversion Hv as [|? ? (c & k' & Ep & Hc) _]; subst; cbn [fst] in Ep; subst k.
      - exists w, (c :: k'). eexists. split; [|split; [assumption|eauto]]. f_equal. cbn [app]. f_equal. f_equal. rewrite <- app_assoc. reflexivity.
      - exists w, (c :: k'). eexists. split; [|split; [assumption|eauto]]. f_equal. cbn [app]. f_equal. f_equal. rewrite <- app_assoc. reflexivity. }
    destruct K as (w & k & r & -> & Hw & c & k' & -> & Hc). cbn [app].
    replace (123 :: (w ++ 34 :: c :: k' ++ r) ++ [125]) with ((123 :: w) ++ 34 :: c :: (k' ++ r) ++ [125]) by (cbn [app]; now rewrite <- (app_assoc w)).
    apply noSplit_key.
    + intros [H2|H2]; [discriminate|]. eapply wsp_no in H2; [|eassumption]. discriminate.
    + intros [H2|H2]; [discriminate|]. eapply wsp_no in H2; [|eassumption]. discriminate.
    + unfold isWs. lia.
    + cbn. lia.
Qed.

(** * Text after the value does not matter *)
Section Ext.
  Variable rest : str.
  Hypothesis Hrest : spanDigits rest = O.
  Definition ext (st : jread) : jread := setText st (jtext st ++ rest).
  Lemma jws_ext s : jws s <> [] -> jws (s ++ rest) = jws s ++ rest.
  Proof. induction s as [|c s IH]; cbn; [congruence|]. destruct (isWs c); auto. Qed.
  Lemma typeAt_ext s t : jtypeAt s = Ok t -> s <> [] /\ jtypeAt (s ++ rest) = Ok t.
  Proof. destruct s as [|c s]; [discriminate|]. intros H. split; [discriminate|exact H]. Qed.
  Lemma typeNext_ext st t st1 : jsonReadTypeNext st = Ok (t, st1) -> jsonReadTypeNext (ext st) = Ok (t, ext st1).
  Proof.
    unfold jsonReadTypeNext, jsonReadConsumeWhiteSpace. cbv zeta. cbn [jtext setText]. destruct (jtypeAt (jws (jtext st))) as [ta| |] eqn:E; try discriminate.
    cbn [bind]. intros H. injection H as -> <-. destruct (typeAt_ext _ _ E) as [Hne Ht]. cbn [ext setText jtext]. rewrite jws_ext by exact Hne. rewrite Ht. reflexivity.
  Qed.
  Lemma tnic_ext st t st1 : jsonReadTypeNextIgnoreComma st = Ok (t, st1) -> jsonReadTypeNextIgnoreComma (ext st) = Ok (t, ext st1).
  Proof.
    intros H. destruct (tnic_cases st) as [E|(t' & E & D)]; rewrite E in H; [discriminate|]. injection H as -> <-.
    unfold jsonReadTypeNextIgnoreComma, jsonReadConsumeWhiteSpace. cbv zeta. cbn [ext jtext setText].
    destruct D as [[Hh Ht]|(r & Er & Ht)]; destruct (typeAt_ext _ _ Ht) as [Hne Ht'].
    - rewrite jws_ext by exact Hne. rewrite (match44 (jws (jtext st) ++ rest)).
      + unfold jsonReadTypeNext, jsonReadConsumeWhiteSpace. cbv zeta. cbn [jtext setText].
        replace (jws (jws (jtext st) ++ rest)) with (jws (jtext st) ++ rest). { rewrite Ht'. reflexivity. }
        rewrite <- (jws_idem (jtext st)) at 1. symmetry. apply jws_ext. now rewrite jws_idem.
      + destruct (jws (jtext st)); [congruence|exact Hh].
    - rewrite jws_ext by (rewrite Er; discriminate). rewrite Er. cbn [app]. rewrite jws_ext by exact Hne. rewrite Ht'. reflexivity.
  Qed.
  Lemma push_ext st t k st1 : jsonReadPush st t k = Ok st1 -> jsonReadPush (ext st) t k = Ok (ext st1).
  Proof.
    unfold jsonReadPush. cbn [ext jcomplete setText]. destruct (jcomplete st); [discriminate|].
    destruct (jsonReadTypeNextIgnoreComma st) as [[ta s1]| |] eqn:E; try discriminate. fold (ext st). rewrite (tnic_ext _ _ _ E). cbn [bind].
    destruct (tnic_opens _ _ _ E) as [-> Ho]. destruct (jtypeEqb ta t); [|discriminate]. cbn [negb ext setText jstack jkey jtext].
    destruct (jstack st) as [|[obj first] stk].
    - destruct (jtypeScalar t); intros H; injection H as <-; reflexivity.
    - destruct (if k then _ else _) as [k'| |]; try discriminate. cbn [bind]. destruct (first && (negb obj || k)).
      + set (x := jws (jtext st)) in *. destruct (Z.eq_dec (hd 0 x) 44) as [Ex|Ex].
        * destruct x as [|c r] eqn:Exx; [discriminate|]. cbn [hd] in Ex. subst c. cbn [app bind].
          destruct (tnic_cases st) as [E'|(t' & E' & D)]; rewrite E in E'; [discriminate|]. fold x in D. rewrite Exx in D.
          destruct D as [[Hh _]|(r' & Er & Ht)]; [cbn in Hh; congruence|]. injection Er as <-. destruct (typeAt_ext _ _ Ht) as [Hne _].
          rewrite jws_ext by exact Hne. intros H. injection H as <-. reflexivity.
        * rewrite (match44 x (fun r => Ok (jws r))) by exact Ex. discriminate.
      + cbn [bind]. intros H. injection H as <-. reflexivity.
  Qed.
  Lemma pop_ext st t st1 : jsonReadPop st t = Ok st1 -> jsonReadPop (ext st) t = Ok (ext st1).
  Proof.
    unfold jsonReadPop. cbn [ext jcomplete setText]. destruct (jcomplete st); [discriminate|].
    destruct (jsonReadTypeNext st) as [[ta s1]| |] eqn:E; try discriminate. fold (ext st). rewrite (typeNext_ext _ _ _ E). cbn [bind].
    destruct (jtypeEqb ta t); [|discriminate]. cbn [negb]. intros H. injection H as <-. reflexivity.
  Qed.
  Lemma advance_ext st st1 : jadvance st = Ok st1 -> jadvance (ext st) = Ok (ext st1).
  Proof. unfold jadvance. cbn [ext jtext setText]. destruct (jtext st); [discriminate|]. cbn. intros H. injection H as <-. reflexivity. Qed.
  Lemma skipBody_ext n : forall s r, (length s <= n)%nat -> skipBody s = Ok r -> skipBody (s ++ rest) = Ok (r ++ rest).
  Proof.
    induction n as [|n IH]; intros s r Hn H; [destruct s; [discriminate|cbn in Hn; lia]|]. destruct s as [|c s]; [discriminate|]. cbn [skipBody length app] in *.
    destruct (c =? 34). { now injection H as <-. }
    destruct (c =? 92); [|apply IH; [lia|exact H]]. destruct s as [|e r1]; [discriminate|]. cbn [app length] in *.
    destruct (e =? 117); [|apply IH; [lia|exact H]].
    destruct r1 as [|a [|b [|x [|d r2]]]]; try discriminate. cbn [app length] in *. destruct (_ && _); [|discriminate].
    destruct r2 as [|y r3]; [discriminate|]. cbn [app length] in *. apply IH; [lia|exact H].
  Qed.
  Lemma skipStr_ext st st1 : jsonReadSkipStr st = Ok st1 -> jsonReadSkipStr (ext st) = Ok (ext st1).
  Proof.
    unfold jsonReadSkipStr. cbn [ext jtext setText]. destruct (jtext st) as [|c r]; [discriminate|]. cbn [jnext app bind].
    destruct (skipBody r) as [x| |] eqn:E; try discriminate. rewrite (skipBody_ext _ _ _ (le_n _) E). cbn. intros H. injection H as <-. reflexivity.
  Qed.
  Lemma colon_ext s x : jsonReadColon s = Ok x -> jsonReadColon (s ++ rest) = Ok (x ++ rest).
  Proof.
    unfold jsonReadColon. destruct (jws s) as [|c r] eqn:E; [discriminate|]. rewrite jws_ext by (rewrite E; discriminate). rewrite E. cbn [app].
    destruct c as [|p|p]; try discriminate; do 6 (destruct p as [p|p|]; try discriminate). intros H. injection H as <-. reflexivity.
  Qed.
  Lemma jbegins_ext s w : jbegins s w = true -> jbegins (s ++ rest) w = true.
  Proof.
    unfold jbegins. intros H. apply strEqb_eq in H. rewrite firstn_app. assert (L : (length w <= length s)%nat).
    { apply (f_equal (@length Z)) in H. rewrite firstn_length in H. lia. }
    replace (length w - length s)%nat with O by lia. cbn [firstn]. rewrite app_nil_r, H. apply strEqb_refl.
  Qed.
  Lemma jbegins_len s w : jbegins s w = true -> (length w <= length s)%nat.
  Proof. unfold jbegins. intros H. apply strEqb_eq in H. apply (f_equal (@length Z)) in H. rewrite firstn_length in H. lia. Qed.
  Lemma skipn_ext n (s : str) : (n <= length s)%nat -> skipn n (s ++ rest) = skipn n s ++ rest.
  Proof. intros H. rewrite skipn_app. replace (n - length s)%nat with O by lia. reflexivity. Qed.
  Lemma bool_ext st b st1 : jsonReadBool st = Ok (b, st1) -> jsonReadBool (ext st) = Ok (b, ext st1).
  Proof.
    unfold jsonReadBool. destruct (jsonReadPush st TBool false) as [s1| |] eqn:E; try discriminate. rewrite (push_ext _ _ _ _ E). cbn [bind ext jtext setText].
    destruct (jbegins (jtext s1) trueZ) eqn:E1.
    - rewrite (jbegins_ext _ _ E1). rewrite skipn_ext by exact (jbegins_len _ _ E1). intros H. injection H as <- <-. reflexivity.
    - destruct (jbegins (jtext s1) falseZ) eqn:E2; [|discriminate].
      assert (Ef : jbegins (jtext s1 ++ rest) trueZ = false) by (rewrite (jbegins_spec _ _ E2); reflexivity).
      rewrite Ef, (jbegins_ext _ _ E2).
      rewrite skipn_ext by exact (jbegins_len _ _ E2). intros H. injection H as <- <-. reflexivity.
  Qed.
  Lemma null_ext st st1 : jsonReadNull st = Ok st1 -> jsonReadNull (ext st) = Ok (ext st1).
  Proof.
    unfold jsonReadNull. destruct (jsonReadPush st TNull false) as [s1| |] eqn:E; try discriminate. rewrite (push_ext _ _ _ _ E). cbn [bind ext jtext setText].
    destruct (jbegins (jtext s1) nullZ) eqn:E1; [|discriminate]. rewrite (jbegins_ext _ _ E1). rewrite skipn_ext by exact (jbegins_len _ _ E1).
    intros H. injection H as <-. reflexivity.
  Qed.
  Lemma spanDigits_ext s : spanDigits (s ++ rest) = spanDigits s.
  Proof. induction s as [|c s IH]; cbn; [exact Hrest|]. destruct (isDigit c); [now rewrite IH|reflexivity]. Qed.
  Lemma number_ext st n v st1 : jsonReadNumber st = Ok (n, v, st1) -> jsonReadNumber (ext st) = Ok (n, v, ext st1).
  Proof.
    unfold jsonReadNumber. cbv zeta. cbn [ext jtext setText].
    destruct (jtext st) as [|c s] eqn:E; [discriminate|]. cbn [app].
    set (neg := match c :: s with 45 :: _ => true | _ => false end).
    change (match c :: s ++ rest with 45 :: _ => true | _ => false end) with neg.
    replace (spanDigits (if neg then tl (c :: s ++ rest) else c :: s ++ rest)) with (spanDigits (if neg then tl (c :: s) else c :: s))
      by (destruct neg; cbn [tl]; [symmetry; apply spanDigits_ext|symmetry; apply (spanDigits_ext (c :: s))]).
    set (d := spanDigits (if neg then tl (c :: s) else c :: s)).
    assert (L : ((if neg then 1 else 0) + d <= length (c :: s))%nat).
    { destruct (spanDigits_spec (if neg then tl (c :: s) else c :: s)) as [_ H]. fold d in H. destruct neg; cbn [tl length Nat.add] in *; lia. }
    destruct (d =? 0)%nat; [discriminate|]. destruct (64 <=? d)%nat; [discriminate|]. set (m := ((if neg then 1 else 0) + d)%nat) in *.
    change (c :: s ++ rest) with ((c :: s) ++ rest). rewrite firstn_app. replace (m - length (c :: s))%nat with O by lia. cbn [firstn]. rewrite app_nil_r.
    rewrite skipn_ext by exact L. destruct (if neg then cvtZToInt64 10 (firstn m (c :: s)) else cvtZToUInt64 10 (firstn m (c :: s))); try discriminate.
    cbn [bind]. intros H. injection H as <- <- <-. reflexivity.
  Qed.
  Lemma loop_ext {A} e (body : A -> jread -> res (A * jread)) body' :
    (forall a st a1 st1, body a st = Ok (a1, st1) -> body' a (ext st) = Ok (a1, ext st1)) ->
    forall n n' a st a1 st1, (n <= n')%nat -> readLoop n e body a st = Ok (a1, st1) -> readLoop n' e body' a (ext st) = Ok (a1, ext st1).
  Proof.
    intros Hb. induction n as [|n IH]; intros n' a st a1 st1 Hn H; [discriminate|]. destruct n' as [|n']; [lia|]. cbn [readLoop] in *.
    destruct (jsonReadTypeNextIgnoreComma st) as [[t s1]| |] eqn:E; try discriminate. rewrite (tnic_ext _ _ _ E). cbn [bind] in *.
    destruct (jtypeEqb t e). { injection H as <- <-. reflexivity. }
    destruct (body a s1) as [[a2 s2]| |] eqn:Eb; try discriminate. rewrite (Hb _ _ _ _ Eb). cbn [bind] in *. apply (IH n'); [lia|exact H].
  Qed.
  Theorem skip_ext f : forall f' st st1, (f <= f')%nat -> jsonReadSkipRecurse f st = Ok st1 -> jsonReadSkipRecurse f' (ext st) = Ok (ext st1).
  Proof.
    induction f as [|f IH]; intros f' st st1 Hf H; [discriminate|]. destruct f' as [|f']; [lia|]. cbn [jsonReadSkipRecurse] in *.
    assert (IH' : forall st st1, jsonReadSkipRecurse f st = Ok st1 -> jsonReadSkipRecurse f' (ext st) = Ok (ext st1)) by (intros; apply IH; [lia|assumption]).
    clear IH. destruct (jsonReadTypeNextIgnoreComma st) as [[t s1]| |] eqn:E; try discriminate. rewrite (tnic_ext _ _ _ E). cbn [bind] in *.
    assert (Lf : forall s, (loopFuel s <= loopFuel (ext s))%nat) by (intros s; unfold loopFuel; cbn; rewrite app_length; lia).
    assert (Hobj : forall st1, (let* st := jsonReadObjectBegin s1 in let* (_, st) := readLoop (loopFuel st) TObjectEnd (skipObj f) tt st in jsonReadObjectEnd st) = Ok st1 ->
      (let* st := jsonReadObjectBegin (ext s1) in let* (_, st) := readLoop (loopFuel st) TObjectEnd (skipObj f') tt st in jsonReadObjectEnd st) = Ok (ext st1)).
    { clear H st1. intros st1. unfold jsonReadObjectBegin, jsonReadObjectEnd.
      destruct (jsonReadPush s1 TObjectBegin false) as [s2| |] eqn:E2; try discriminate. rewrite (push_ext _ _ _ _ E2). cbn [bind].
      destruct (jadvance s2) as [s3| |] eqn:E3; try discriminate. rewrite (advance_ext _ _ E3). cbn [bind].
      destruct (readLoop (loopFuel s3) TObjectEnd (skipObj f) tt s3) as [[a s4]| |] eqn:E4; try discriminate.
      rewrite (loop_ext TObjectEnd (skipObj f) (skipObj f')) with (n := loopFuel s3) (a1 := a) (st1 := s4); [| |apply Lf|exact E4]; cbn [bind].
      - destruct (jsonReadPop s4 TObjectEnd) as [s5| |] eqn:E5; try discriminate. rewrite (pop_ext _ _ _ E5). cbn [bind]. apply advance_ext.
      - clear -IH' Hrest. intros a st a1 st1. unfold skipObj. destruct (jsonReadPush st TString true) as [s2| |] eqn:E2; try discriminate. rewrite (push_ext _ _ _ _ E2). cbn [bind].
        destruct (jsonReadSkipStr s2) as [s3| |] eqn:E3; try discriminate. rewrite (skipStr_ext _ _ E3). cbn [bind ext jtext setText].
        destruct (jsonReadColon (jtext s3)) as [x| |] eqn:E4; try discriminate. rewrite (colon_ext _ _ E4). cbn [bind].
        destruct (jsonReadSkipRecurse f (setText s3 x)) as [s5| |] eqn:E5; try discriminate. apply IH' in E5.
        match goal with |- context [jsonReadSkipRecurse f' ?q] => change q with (ext (setText s3 x)) end. rewrite E5. cbn. intros H. injection H as <- <-. reflexivity. }
    destruct t; try (exact (Hobj _ H)).
    - apply null_ext. exact H.
    - destruct (jsonReadBool s1) as [[b s2]| |] eqn:E2; try discriminate. rewrite (bool_ext _ _ _ E2). cbn [bind] in *. now injection H as <-.
    - destruct (jsonReadPush s1 TNumber false) as [s2| |] eqn:E2; try discriminate. rewrite (push_ext _ _ _ _ E2). cbn [bind] in *.
      destruct (jsonReadNumber s2) as [[[n v] s3]| |] eqn:E3; try discriminate. rewrite (number_ext _ _ _ _ E3). cbn [bind] in *. now injection H as <-.
    - destruct (jsonReadPush s1 TString false) as [s2| |] eqn:E2; try discriminate. rewrite (push_ext _ _ _ _ E2). cbn [bind] in *. now apply skipStr_ext.
    - change (fun (_ : unit) (st0 : jread) => let* st1 := jsonReadSkipRecurse f st0 in Ok (tt, st1)) with (skipArr f) in H.
      change (fun (_ : unit) (st0 : jread) => let* st1 := jsonReadSkipRecurse f' st0 in Ok (tt, st1)) with (skipArr f').
      unfold jsonReadArrayBegin, jsonReadArrayEnd in *.
      destruct (jsonReadPush s1 TArrayBegin false) as [s2| |] eqn:E2; try discriminate. rewrite (push_ext _ _ _ _ E2). cbn [bind] in *.
      destruct (jadvance s2) as [s3| |] eqn:E3; try discriminate. rewrite (advance_ext _ _ E3). cbn [bind] in *.
      destruct (readLoop (loopFuel s3) TArrayEnd (skipArr f) tt s3) as [[a s4]| |] eqn:E4; try discriminate.
      rewrite (loop_ext TArrayEnd (skipArr f) (skipArr f')) with (n := loopFuel s3) (a1 := a) (st1 := s4); [| |apply Lf|exact E4]; cbn [bind] in *.
      + destruct (jsonReadPop s4 TArrayEnd) as [s5| |] eqn:E5; try discriminate. rewrite (pop_ext _ _ _ E5). cbn [bind] in *. now apply advance_ext.
      + clear -IH' Hrest. intros a st a1 st1. unfold skipArr. destruct (jsonReadSkipRecurse f st) as [s2| |] eqn:E2; try discriminate. rewrite (IH' _ _ E2).
        cbn. intros H. injection H as <- <-. reflexivity.
  Qed.
End Ext.

(** Values accepted by jsonValidate() are determined by a longer text, when what follows them is neither a digit nor white space. *)
Theorem validate_prefix v1 r1 v2 r2 : jsonValidate v1 = Ok tt -> jsonValidate v2 = Ok tt ->
  (forall c, hd_error r1 = Some c -> isWs c = false /\ isDigit c = false) -> (forall c, hd_error r2 = Some c -> isWs c = false /\ isDigit c = false) -> r1 <> [] -> r2 <> [] ->
  v1 ++ r1 = v2 ++ r2 -> v1 = v2 /\ r1 = r2.
Proof.
  assert (K : forall v r, jsonValidate v = Ok tt -> r <> [] -> (forall c, hd_error r = Some c -> isWs c = false /\ isDigit c = false) ->
    exists st', jsonReadSkip (jsonReadNew (v ++ r)) = Ok st' /\ jws (jtext st') = r).
  { intros v r H Hne Hr. unfold jsonValidate in H. destruct (jsonReadSkip (jsonReadNew v)) as [st| |] eqn:E; try discriminate. cbn [bind] in H.
    destruct (jws (jtext st)) eqn:Ew; [|discriminate]. assert (Hd : spanDigits r = O).
    { destruct r as [|c r]; [congruence|]. cbn. now rewrite (proj2 (Hr c eq_refl)). }
    exists (ext r st). split.
    - apply (skip_ext r Hd (S (length v)) _ (jsonReadNew v)); [cbn; rewrite app_length; lia|exact E].
    - cbn [ext jtext setText]. clear -Ew Hne Hr. induction (jtext st) as [|c s IH]; cbn [app].
      + destruct r as [|c r]; [congruence|]. cbn [jws]. now rewrite (proj1 (Hr c eq_refl)).
      + cbn [jws] in *. destruct (isWs c); [auto|discriminate]. }
  intros H1 H2 Hr1 Hr2 Hn1 Hn2 E. destruct (K _ _ H1 Hn1 Hr1) as (s1 & E1 & W1). destruct (K _ _ H2 Hn2 Hr2) as (s2 & E2 & W2).
  rewrite E, E2 in E1. injection E1 as <-. rewrite W1 in W2. subst r2. split; [|reflexivity]. now apply app_inv_tail in E.
Qed.
