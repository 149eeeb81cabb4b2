From Verif Require Import Base Str ConvertModel NumModel NumSpec NumProof JsonModel JsonSpec JsonProof JsonProof2 JsonProof3 JsonProof4 JsonProof5.
Open Scope Z_scope.

(** * A text that ends with a quote is accepted only as a string *)

Lemma lit_last l s : l <> [] -> Forall (fun c => c <> 61 /\ c <> 34 /\ c <> 92) l -> exists c, c <> 34 /\ suffix (c :: s) (l ++ s).
Proof.
  intros Hne Hl. destruct (exists_last Hne) as (a & c & ->). apply Forall_app in Hl as [_ Hl]. inversion Hl; subst. exists c. split; [tauto|].
  exists a. now rewrite <- app_assoc.
Qed.
Lemma nth_firstn_last d (q : str) : (S d <= length q)%nat -> nth d q 0 = nth d (firstn (S d) q) 0.
Proof.
  revert d. induction q as [|c q IH]; intros d H; [cbn in H; lia|]. destruct d; [reflexivity|]. cbn [length] in H. cbn [nth firstn]. apply (IH d). lia.
Qed.
Lemma number_last st p : jsonReadNumber st = Ok p -> exists c, c <> 34 /\ suffix (c :: jtext (snd p)) (jtext st).
Proof.
  unfold jsonReadNumber. cbv zeta. set (s := jtext st).
  set (neg := match s with 45 :: _ => true | _ => false end). set (d := spanDigits (if neg then tl s else s)).
  destruct (Nat.eqb_spec d 0); [discriminate|]. destruct (Nat.leb_spec 64 d); [discriminate|].
  assert (Hd : exists m, (S m = (if neg then 1 else 0) + d)%nat /\ (S m <= length s)%nat /\ isDigit (nth m s 0) = true).
  { destruct (spanDigits_spec (if neg then tl s else s)) as [H1 H2]. fold d in H1, H2. destruct d as [|d]; [congruence|].
    rewrite Forall_forall in H1. assert (D : isDigit (nth d (if neg then tl s else s) 0) = true).
    { assert (E : nth d (if neg then tl s else s) 0 = nth d (firstn (S d) (if neg then tl s else s)) 0).
      { apply nth_firstn_last. exact H2. }
      rewrite E. apply H1, nth_In. rewrite firstn_length. apply Nat.min_glb_lt; [apply Nat.lt_succ_diag_r|exact H2]. }
    destruct neg eqn:En.
    - exists (S d). destruct s as [|c s']; [cbn in H2; lia|]. cbn [tl length Nat.add] in *. split; [reflexivity|]. split; [lia|exact D].
    - exists d. auto. }
  destruct Hd as (m & E & L & D). rewrite <- E.
  destruct (if neg then cvtZToInt64 10 (firstn (S m) s) else cvtZToUInt64 10 (firstn (S m) s)) as [v| |]; [|discriminate|discriminate]. cbn [bind]. intros H0. injection H0 as <-. cbn [snd jtext setText].
  exists (nth m s 0). split; [unfold isDigit in D; lia|]. exists (firstn m s).
  rewrite (firstn_split m s) at 1. f_equal. clear -L. revert m L. induction s as [|c s IH]; intros m L; [cbn in L; lia|].
  destruct m; [reflexivity|]. cbn [length] in L. cbn [skipn nth]. apply (IH m). lia.
Qed.
Lemma word_last s w : jbegins s w = true -> w <> [] -> Forall (fun c => c <> 61 /\ c <> 34 /\ c <> 92) w ->
  exists c, c <> 34 /\ suffix (c :: skipn (length w) s) s.
Proof. intros H Hne Hw. pose proof (lit_last w (skipn (length w) s) Hne Hw) as K. rewrite <- (jbegins_spec s w H) in K. exact K. Qed.

Lemma suffix_ws (a s : str) : suffix a (jws s) -> suffix a s.
Proof. intros H. eapply suffix_trans; [exact H|]. exact (toks_suffix _ _ _ _ (toks_ws true s)). Qed.
Lemma push_top s t st : jsonReadPush (jsonReadNew s) t false = Ok st -> jtext st = jws s /\ opens (jws s) t.
Proof.
  intros H. pose proof (push_any (jsonReadNew s) t ltac:(now split)) as K. rewrite H in K. cbn in K. destruct K as (x & -> & _ & Ho).
  unfold jsonReadPush in H. cbn [jcomplete jsonReadNew] in H.
  destruct (tnic_cases (jsonReadNew s)) as [E|(ta & E & _)]; rewrite E in H; [discriminate|]. cbn [bind] in H.
  destruct (jtypeEqb ta t); [|discriminate]. cbn [negb jstack jsonReadNew setText] in H.
  destruct (jtypeScalar t) eqn:Et; injection H as H; unfold pushed, after in H; rewrite Et in H; cbn in H.
  - injection H as H. subst x. cbn. split; [unfold pushed; rewrite Et; reflexivity|exact Ho].
  - injection H as H. subst x. split; [unfold pushed; rewrite Et; reflexivity|exact Ho].
Qed.

Theorem top_last s st' : jsonReadSkip (jsonReadNew s) = Ok st' ->
  (exists c, c <> 34 /\ suffix (c :: jtext st') s) \/ (exists o b, jws s = o :: b /\ (o = 34 \/ o = 44) /\ skipBody b = Ok (jtext st')).
Proof.
  unfold jsonReadSkip. change (jtext (jsonReadNew s)) with s. remember (length s) as f eqn:Ef. cbn [jsonReadSkipRecurse].
  assert (Hg : skipGood f) by (intros st; apply skip_any).
  destruct (tnic_cases (jsonReadNew s)) as [-> |(t & -> & _)]; [discriminate|]. cbn [bind]. cbn [jtext jsonReadNew].
  pose proof (jws_len s) as Lw. pose proof (jws_idem s) as Hi. set (x := jws s) in *.
  change (setText (jsonReadNew s) x) with (jsonReadNew x).
  assert (Hx : forall c r, c <> 34 -> suffix (c :: r) x -> exists c, c <> 34 /\ suffix (c :: r) s).
  { intros c r Hc Hs. exists c. split; [exact Hc|]. now apply suffix_ws. }
  assert (Hobj : okOr false x (fun st' => exists c, c <> 34 /\ suffix (c :: jtext st') x)
    (let* st := jsonReadObjectBegin (jsonReadNew x) in let* (_, st) := readLoop (loopFuel st) TObjectEnd (skipObj f) tt st in jsonReadObjectEnd st)).
  { eapply okOr_impl; [apply (container_any true f (skipObj f) (jsonReadNew x) ltac:(now split)); [cbn; lia|exact (objBody_any f Hg)]|intros a H; apply H]. }
  destruct t; try (intros E; left; change (fun (_ : unit) (st0 : jread) => let* st1 := jsonReadPush st0 TString true in let* st2 := jsonReadSkipStr st1 in let* s0 := jsonReadColon (jtext st2) in let* st3 := jsonReadSkipRecurse f (setText st2 s0) in Ok (tt, st3)) with (skipObj f) in E;
    rewrite E in Hobj; cbn in Hobj; destruct Hobj as (c & Hc & Hs); exact (Hx _ _ Hc Hs)).
  - unfold jsonReadNull. destruct (jsonReadPush (jsonReadNew x) TNull false) as [st| |] eqn:E; cbn [bind]; [|discriminate|discriminate].
    destruct (push_top _ _ _ E) as [E1 _]. rewrite Hi in E1. rewrite E1. destruct (jbegins x nullZ) eqn:Eb; [|discriminate].
    intros H. injection H as <-. left. destruct (word_last _ _ Eb) as (c & Hc & Hs); [discriminate|unfold nullZ; repeat constructor; discriminate|].
    exact (Hx _ _ Hc Hs).
  - unfold jsonReadBool. destruct (jsonReadPush (jsonReadNew x) TBool false) as [st| |] eqn:E; cbn [bind]; [|discriminate|discriminate].
    destruct (push_top _ _ _ E) as [E1 _]. rewrite Hi in E1. rewrite E1. destruct (jbegins x trueZ) eqn:Eb; [|destruct (jbegins x falseZ) eqn:Eb2; [|discriminate]]; cbn [bind];
      intros H; injection H as <-; left.
    + destruct (word_last _ _ Eb) as (c & Hc & Hs); [discriminate|unfold trueZ; repeat constructor; discriminate|]. exact (Hx _ _ Hc Hs).
    + destruct (word_last _ _ Eb2) as (c & Hc & Hs); [discriminate|unfold falseZ; repeat constructor; discriminate|]. exact (Hx _ _ Hc Hs).
  - destruct (jsonReadPush (jsonReadNew x) TNumber false) as [st| |] eqn:E; cbn [bind]; [|discriminate|discriminate].
    destruct (push_top _ _ _ E) as [E1 _]. rewrite Hi in E1.
    destruct (jsonReadNumber st) as [[[n v] st1]| |] eqn:En; cbn [bind]; [|discriminate|discriminate]. intros H. injection H as <-. left.
    destruct (number_last _ _ En) as (c & Hc & Hs). rewrite E1 in Hs. exact (Hx _ _ Hc Hs).
  - destruct (jsonReadPush (jsonReadNew x) TString false) as [st| |] eqn:E; cbn [bind]; [|discriminate|discriminate].
    destruct (push_top _ _ _ E) as [E1 Ho]. rewrite Hi in E1, Ho. unfold jsonReadSkipStr. rewrite E1. intros H. right.
    assert (Hc : exists o b, x = o :: b /\ (o = 34 \/ o = 44)).
    { destruct Ho as [Ho|(r & Ho & _)]; [|eauto]. destruct x as [|c r]; [discriminate|]. exists c, r. split; [reflexivity|]. left. exact (typeAt_char _ _ _ _ eq_refl Ho). }
    destruct Hc as (o & b & Ex & Hc). rewrite Ex in H. cbn [jnext bind] in H. destruct (skipBody b) as [y| |] eqn:Eb; cbn in H; try discriminate.
    injection H as <-. exists o, b. split; [exact Ex|]. auto.
  - intros E. left. change (fun (_ : unit) (st0 : jread) => let* st1 := jsonReadSkipRecurse f st0 in Ok (tt, st1)) with (skipArr f) in E.
    pose proof (container_any false f (skipArr f) (jsonReadNew x) ltac:(now split) ltac:(cbn; lia) (arrBody_any f Hg)) as K.
    unfold jsonReadArrayBegin, jsonReadArrayEnd in E. cbn [jtext jsonReadNew] in K. 
    match type of K with okOr _ _ _ ?r => assert (Er : r = Ok st') by exact E; rewrite Er in K end. cbn in K. destruct K as (_ & c & Hc & Hs). exact (Hx _ _ Hc Hs).
Qed.

(** * No earlier '=' is taken for the separator *)
Lemma skipBody_eq n : forall q v r, (length q <= n)%nat -> skipBody (q ++ 61 :: v) = Ok r ->
  (exists q', r = q' ++ 61 :: v /\ (length q' < length q)%nat) \/ skipBody v = Ok r.
Proof.
  induction n as [|n IH]; intros q v r Hn H; [destruct q; [|cbn in Hn; lia]|destruct q as [|c q]].
  1,2: cbn in H; auto.
  cbn [app skipBody] in H. cbn [length] in *.
  assert (K : forall q2, (length q2 <= length q)%nat -> skipBody (q2 ++ 61 :: v) = Ok r -> (exists q', r = q' ++ 61 :: v /\ (length q' < S (length q))%nat) \/ skipBody v = Ok r).
  { intros q2 L E. destruct (IH q2 v r ltac:(lia) E) as [(q' & A & B)|A]; [left; exists q'; split; [exact A|lia]|now right]. }
  destruct (c =? 34). { injection H as <-. left. exists q. split; [reflexivity|lia]. }
  destruct (c =? 92); [|apply (K q); [lia|exact H]].
  destruct q as [|e q]; [cbn [app] in H; change (61 =? 117) with false in H; now right|]. cbn [app length] in *.
  destruct (e =? 117); [|apply (K q); [lia|exact H]].
  destruct q as [|a [|b [|x [|d [|y q]]]]]; cbn [app length] in *.
  - destruct v as [|v1 [|v2 [|v3 v4]]]; discriminate.
  - destruct v as [|v1 [|v2 v3]]; try discriminate. destruct (isDigit a); discriminate.
  - destruct v as [|v1 v2]; try discriminate. destruct (isDigit a), (isDigit b); discriminate.
  - destruct (isDigit a), (isDigit b), (isDigit x); discriminate.
  - destruct (_ && _); [|discriminate]. now right.
  - destruct (_ && _); [|discriminate]. apply (K q); [lia|exact H].
Qed.
Lemma lit_eq (l s p v : str) : Forall (fun c => c <> 61 /\ c <> 34 /\ c <> 92) l -> l ++ s = p ++ 61 :: v -> exists p', s = p' ++ 61 :: v /\ p = l ++ p'.
Proof.
  revert p. induction l as [|c l IH]; intros p Hl E; [now exists p|]. inversion Hl; subst. destruct p as [|d p]; cbn in E.
  - injection E as E1 E2. tauto.
  - injection E as -> E. destruct (IH p) as (p' & -> & ->); [assumption|assumption|]. now exists p'.
Qed.
Theorem toks_eq f s f' r0 : toks f s f' r0 -> r0 = [] -> forall p v, s = p ++ 61 :: v -> exists r, skipBody v = Ok r /\ toks true r f' [].
Proof.
  induction 1 as [f s|f s f1 s1 f2 s2 Ht Hs IH]; intros Er p v E; [subst s; destruct p; discriminate|]. subst s2.
  assert (C : forall c, c <> 61 -> c :: s1 = p ++ 61 :: v -> exists r, skipBody v = Ok r /\ toks true r f2 []).
  { intros c Hc Ec. destruct p as [|d p]; cbn in Ec; [injection Ec as E1 E2; tauto|]. injection Ec as -> Ec. exact (IH eq_refl p v Ec). }
  inversion Ht; subst.
  - apply (C c); [unfold isWs in *; lia|assumption].
  - apply (C c); [lia|assumption].
  - apply (C c); [lia|assumption].
  - apply (C c); [lia|assumption].
  - match goal with H : l ++ s1 = _ |- _ => destruct (lit_eq l s1 p v ltac:(assumption) H) as (p' & E' & _) end. exact (IH eq_refl p' v E').
  - destruct p as [|d p]; cbn in *; [match goal with H : o :: _ = _ |- _ => injection H as H _ end; lia|].
    match goal with H : o :: s0 = _ |- _ => injection H as -> -> end.
    match goal with H : skipBody _ = Ok _ |- _ => destruct (skipBody_eq _ p v s1 (le_n _) H) as [(q' & E' & _)|E'] end; [exact (IH eq_refl q' v E')|eauto].
Qed.
