From Verif Require Import Base Str ConvertModel NumModel NumSpec NumProof JsonModel JsonSpec JsonProof.
Open Scope Z_scope.

Lemma follow_ws w c rest : wsp w -> isDigit c = false -> follow (w ++ c :: rest).
Proof. intros Hw Hc. destruct Hw as [|a w Ha Hw]; cbn; [exact Hc|]. unfold isDigit. lia. Qed.
Lemma kvPut_new {A} (l : list (str * A)) k v : ~ In k (map fst l) -> kvPut l k v = l ++ [(k, v)].
Proof.
  induction l as [|[k' v'] l IH]; cbn; intros H; [reflexivity|].
  destruct (strEqb k' k) eqn:E; [apply strEqb_eq in E; tauto|]. f_equal. apply IH. tauto.
Qed.
Lemma elem_after (obj first : bool) r st s : jstack st = (obj, first) :: r -> after st s = endState obj r true s.
Proof. intros E. unfold after, endState. rewrite E. reflexivity. Qed.
Lemma elemPos_after obj r w s : wsp w -> elemPos obj true r (endState obj r true (w ++ 44 :: s)) s.
Proof. intros Hw. unfold elemPos, endState. cbn. split; [reflexivity|]. split; [reflexivity|]. split; [reflexivity|]. exists w. auto. Qed.
Lemma begin_elemPos st s (obj : bool) : valuePos st ((if obj then 123 else 91) :: s) ->
  (let* st := jsonReadPush st (if obj then TObjectBegin else TArrayBegin) false in jadvance st) = Ok (endState obj (markFirst (jstack st)) false s) /\
  elemPos obj false (markFirst (jstack st)) (endState obj (markFirst (jstack st)) false s) s.
Proof.
  intros H. rewrite (valuePos_push _ _ (if obj then TObjectBegin else TArrayBegin) H).
  - destruct obj; (split; [reflexivity|]); unfold elemPos; cbn; auto.
  - destruct obj; (split; [split; [reflexivity|discriminate]|reflexivity]).
Qed.
Lemma digits_head ds v rest : digitsIs 10 ds v -> headOk (ds ++ rest) TNumber.
Proof.
  intros H. destruct (digitsIs_all _ _ H) as [Hne Hall]. destruct ds as [|c r]; [congruence|]. inversion Hall; subst.
  unfold isDigit in H2. split; cbn.
  - unfold isWs. lia.
  - unfold isDigit. destruct (Z.eqb_spec c 34); [lia|]. replace ((c =? 45) || ((48 <=? c) && (c <=? 57))) with true by lia. reflexivity.
Qed.

Definition arrBody (f : nat) := fun (l : list jvar) (st : jread) => let* (x, st) := jsonReadVarRecurse f st in Ok (l ++ [x], st).
Definition objBody (f : nat) := fun (l : list (str * jvar)) (st : jread) =>
  let* (k, st) := jsonReadKey st in let* (x, st) := jsonReadVarRecurse f st in Ok (kvPut l k x, st).

Ltac lens H := repeat (first [rewrite app_length in H | progress cbn [length] in H]).

Lemma read_grammar u :
  (forall v s, jgram u v s -> forall fuel st rest, (length s < fuel)%nat -> valuePos st (s ++ rest) -> follow rest ->
     jsonReadVarRecurse fuel st = Ok (v, after st rest)) /\
  (forall l s, jelems u l s -> forall fuel n acc first r st rest, (length s < fuel)%nat -> (length s < n)%nat ->
     elemPos false first r st (s ++ 93 :: rest) ->
     readLoop n TArrayEnd (arrBody fuel) acc st = Ok (acc ++ l, endState false r true (93 :: rest))) /\
  (forall l s, jmembers u l s -> forall fuel n acc first r st rest, (length s < fuel)%nat -> (length s < n)%nat ->
     NoDup (map fst (acc ++ l)) -> elemPos true first r st (s ++ 125 :: rest) ->
     readLoop n TObjectEnd (objBody fuel) acc st = Ok (acc ++ l, endState true r true (125 :: rest))).
Proof.
  apply (jgram_mutind u
    (fun v s _ => forall fuel st rest, (length s < fuel)%nat -> valuePos st (s ++ rest) -> follow rest ->
       jsonReadVarRecurse fuel st = Ok (v, after st rest))
    (fun l s _ => forall fuel n acc first r st rest, (length s < fuel)%nat -> (length s < n)%nat ->
       elemPos false first r st (s ++ 93 :: rest) ->
       readLoop n TArrayEnd (arrBody fuel) acc st = Ok (acc ++ l, endState false r true (93 :: rest)))
    (fun l s _ => forall fuel n acc first r st rest, (length s < fuel)%nat -> (length s < n)%nat ->
       NoDup (map fst (acc ++ l)) -> elemPos true first r st (s ++ 125 :: rest) ->
       readLoop n TObjectEnd (objBody fuel) acc st = Ok (acc ++ l, endState true r true (125 :: rest)))).
  - (* null *) intros fuel st rest Hf Hp _. destruct fuel as [|f]; [cbn in Hf; lia|]. cbn [app] in Hp. cbn [jsonReadVarRecurse].
    assert (Hh : headOk (110 :: 117 :: 108 :: 108 :: rest) TNull) by (split; [split; [reflexivity|discriminate]|reflexivity]).
    destruct (valuePos_type _ _ _ Hp Hh) as [E Hq]. rewrite E. cbn [bind]. unfold jsonReadNull. rewrite (valuePos_push _ _ _ Hq Hh). reflexivity.
  - (* true *) intros fuel st rest Hf Hp _. destruct fuel as [|f]; [cbn in Hf; lia|]. cbn [app] in Hp. cbn [jsonReadVarRecurse].
    assert (Hh : headOk (116 :: 114 :: 117 :: 101 :: rest) TBool) by (split; [split; [reflexivity|discriminate]|reflexivity]).
    destruct (valuePos_type _ _ _ Hp Hh) as [E Hq]. rewrite E. cbn [bind]. unfold jsonReadBool. rewrite (valuePos_push _ _ _ Hq Hh). reflexivity.
  - (* false *) intros fuel st rest Hf Hp _. destruct fuel as [|f]; [cbn in Hf; lia|]. cbn [app] in Hp. cbn [jsonReadVarRecurse].
    assert (Hh : headOk (102 :: 97 :: 108 :: 115 :: 101 :: rest) TBool) by (split; [split; [reflexivity|discriminate]|reflexivity]).
    destruct (valuePos_type _ _ _ Hp Hh) as [E Hq]. rewrite E. cbn [bind]. unfold jsonReadBool. rewrite (valuePos_push _ _ _ Hq Hh). reflexivity.
  - (* uint *) intros ds v Hd Hl Hv fuel st rest Hf Hp Hr. destruct fuel as [|f]; [lia|]. cbn [jsonReadVarRecurse].
    pose proof (digits_head _ _ rest Hd) as Hh.
    destruct (valuePos_type _ _ _ Hp Hh) as [E Hq]. rewrite E. cbn [bind]. rewrite (valuePos_push _ _ _ Hq Hh). cbn [bind].
    rewrite (number_uint _ ds v rest Hd Hl Hv Hr); reflexivity.
  - (* int *) intros ds v Hd Hl Hv fuel st rest Hf Hp Hr. destruct fuel as [|f]; [lia|]. cbn [jsonReadVarRecurse]. cbn [app] in Hp.
    assert (Hh : headOk (45 :: ds ++ rest) TNumber) by (split; [split; [reflexivity|discriminate]|reflexivity]).
    destruct (valuePos_type _ _ _ Hp Hh) as [E Hq]. rewrite E. cbn [bind]. rewrite (valuePos_push _ _ _ Hq Hh). cbn [bind].
    rewrite (number_int _ ds v rest Hd Hl Hv Hr); reflexivity.
  - (* string *) intros s t Hs fuel st rest Hf Hp _. destruct fuel as [|f]; [lia|]. cbn [jsonReadVarRecurse]. cbn [app] in Hp. rewrite <- app_assoc in Hp.
    cbn [app] in Hp.
    assert (Hh : headOk (34 :: t ++ 34 :: rest) TString) by (split; [split; [reflexivity|discriminate]|reflexivity]).
    destruct (valuePos_type _ _ _ Hp Hh) as [E Hq]. rewrite E. cbn [bind]. unfold jsonReadStr.
    destruct (valuePos_type _ _ _ Hq Hh) as [E' Hq']. rewrite E'. cbn [bind]. rewrite (valuePos_push _ _ _ Hq' Hh). cbn [bind].
    change (jtext (pushed (jsonReadConsumeWhiteSpace (jsonReadConsumeWhiteSpace st)) (34 :: t ++ 34 :: rest) TString)) with (34 :: t ++ 34 :: rest).
    cbn [jnext bind]. rewrite (chars_body _ _ _ Hs). reflexivity.
  - (* empty array *) intros w Hw fuel st rest Hf Hp _. destruct fuel as [|f]; [lia|]. cbn [jsonReadVarRecurse]. cbn [app] in Hp. rewrite <- app_assoc in Hp.
    cbn [app] in Hp.
    assert (Hh : headOk (91 :: w ++ 93 :: rest) TArrayBegin) by (split; [split; [reflexivity|discriminate]|reflexivity]).
    destruct (valuePos_type _ _ _ Hp Hh) as [E Hq]. rewrite E. cbn [bind]. unfold jsonReadArrayBegin.
    destruct (begin_elemPos _ _ false Hq) as [E1 E2]. rewrite E1. cbn [bind]. unfold loopFuel. cbn [readLoop].
    rewrite (end_type false false _ w rest Hw). cbn [bind jtypeEqb]. unfold jsonReadArrayEnd.
    rewrite (end_pop false false _ rest (jsonReadConsumeWhiteSpace st) eq_refl (proj1 Hq)). reflexivity.
  - (* array *) intros l s Hs IH fuel st rest Hf Hp _. destruct fuel as [|f]; [lia|]. cbn [jsonReadVarRecurse]. cbn [app] in Hp. rewrite <- app_assoc in Hp.
    cbn [app] in Hp.
    assert (Hh : headOk (91 :: s ++ 93 :: rest) TArrayBegin) by (split; [split; [reflexivity|discriminate]|reflexivity]).
    destruct (valuePos_type _ _ _ Hp Hh) as [E Hq]. rewrite E. cbn [bind]. unfold jsonReadArrayBegin.
    destruct (begin_elemPos _ _ false Hq) as [E1 E2]. rewrite E1. cbn [bind]. cbn [length] in Hf. rewrite app_length in Hf.
    change (fun (l0 : list jvar) (st0 : jread) => let* (x, st1) := jsonReadVarRecurse f st0 in Ok (l0 ++ [x], st1)) with (arrBody f).
    rewrite (IH f _ [] false (markFirst (jstack (jsonReadConsumeWhiteSpace st))) _ rest); [|lia| |exact E2].
    + cbn [bind app]. unfold jsonReadArrayEnd.
      rewrite (end_pop false true _ rest (jsonReadConsumeWhiteSpace st) eq_refl (proj1 Hq)). reflexivity.
    + unfold loopFuel, endState. cbn [jtext]. rewrite app_length. lia.
  - (* empty object *) intros w Hw fuel st rest Hf Hp _. destruct fuel as [|f]; [lia|]. cbn [jsonReadVarRecurse]. cbn [app] in Hp. rewrite <- app_assoc in Hp.
    cbn [app] in Hp.
    assert (Hh : headOk (123 :: w ++ 125 :: rest) TObjectBegin) by (split; [split; [reflexivity|discriminate]|reflexivity]).
    destruct (valuePos_type _ _ _ Hp Hh) as [E Hq]. rewrite E. cbn [bind]. unfold jsonReadObjectBegin.
    destruct (begin_elemPos _ _ true Hq) as [E1 E2]. rewrite E1. cbn [bind]. unfold loopFuel. cbn [readLoop].
    rewrite (end_type true false _ w rest Hw). cbn [bind jtypeEqb]. unfold jsonReadObjectEnd.
    rewrite (end_pop true false _ rest (jsonReadConsumeWhiteSpace st) eq_refl (proj1 Hq)). reflexivity.
  - (* object *) intros l s Hs IH Hnd fuel st rest Hf Hp _. destruct fuel as [|f]; [lia|]. cbn [jsonReadVarRecurse]. cbn [app] in Hp. rewrite <- app_assoc in Hp.
    cbn [app] in Hp.
    assert (Hh : headOk (123 :: s ++ 125 :: rest) TObjectBegin) by (split; [split; [reflexivity|discriminate]|reflexivity]).
    destruct (valuePos_type _ _ _ Hp Hh) as [E Hq]. rewrite E. cbn [bind]. unfold jsonReadObjectBegin.
    destruct (begin_elemPos _ _ true Hq) as [E1 E2]. rewrite E1. cbn [bind]. cbn [length] in Hf. rewrite app_length in Hf.
    change (fun (l0 : list (str * jvar)) (st0 : jread) => let* (k, st1) := jsonReadKey st0 in let* (x, st2) := jsonReadVarRecurse f st1 in Ok (kvPut l0 k x, st2))
      with (objBody f).
    rewrite (IH f _ [] false (markFirst (jstack (jsonReadConsumeWhiteSpace st))) _ rest); [|lia| |exact Hnd|exact E2].
    + cbn [bind app]. unfold jsonReadObjectEnd.
      rewrite (end_pop true true _ rest (jsonReadConsumeWhiteSpace st) eq_refl (proj1 Hq)). reflexivity.
    + unfold loopFuel, endState. cbn [jtext]. rewrite app_length. lia.
  - (* last element *) intros v s w w' Hg IH Hw Hw' fuel n acc first r st rest Hf Hn Hp. rewrite !app_length in Hf, Hn.
    rewrite <- !app_assoc in Hp. pose proof (elemPos_value _ _ _ _ _ Hw Hp) as Hv.
    destruct n as [|[|n]]; [lia| |].
    { exfalso. assert (length s <> 0%nat) by (destruct Hg; cbn; try discriminate; destruct (digitsIs_all _ _ H); destruct ds; cbn; congruence). lia. }
    destruct Hp as (Hc & Hk & Es & _).
    assert (Hh : exists t, headOk (s ++ w' ++ 93 :: rest) t /\ t <> TArrayEnd).
    { destruct Hg; try (eexists; split; [split; [split; [reflexivity|discriminate]|reflexivity]|discriminate]).
      exists TNumber. split; [eapply digits_head; eassumption|discriminate]. }
    destruct Hh as (t & Hh & Ht). destruct (valuePos_type _ _ _ Hv Hh) as [E Hq]. cbn [readLoop]. rewrite E. cbn [bind].
    replace (jtypeEqb t TArrayEnd) with false by (now destruct t).
    unfold arrBody at 1. rewrite (IH fuel _ (w' ++ 93 :: rest)); [|lia|exact Hq|apply follow_ws; [exact Hw'|reflexivity]]. cbn [bind].
    rewrite after_ws, (elem_after _ _ _ _ _ Es). rewrite (end_type false true r w' rest Hw'). reflexivity.
  - (* element *) intros v s w w' l t0 Hg IH Hw Hw' Hl IHl fuel n acc first r st rest Hf Hn Hp. rewrite !app_length in Hf, Hn. cbn [length] in Hf, Hn.
    rewrite <- !app_assoc in Hp. cbn [app] in Hp. pose proof (elemPos_value _ _ _ _ _ Hw Hp) as Hv.
    destruct n as [|n]; [lia|]. destruct Hp as (Hc & Hk & Es & _).
    assert (Hh : exists t, headOk (s ++ w' ++ 44 :: t0 ++ 93 :: rest) t /\ t <> TArrayEnd).
    { destruct Hg; try (eexists; split; [split; [split; [reflexivity|discriminate]|reflexivity]|discriminate]).
      exists TNumber. split; [eapply digits_head; eassumption|discriminate]. }
    destruct Hh as (t & Hh & Ht). destruct (valuePos_type _ _ _ Hv Hh) as [E Hq]. cbn [readLoop]. rewrite E. cbn [bind].
    replace (jtypeEqb t TArrayEnd) with false by (now destruct t).
    unfold arrBody at 1. rewrite (IH fuel _ (w' ++ 44 :: t0 ++ 93 :: rest)); [|lia|exact Hq|apply follow_ws; [exact Hw'|reflexivity]]. cbn [bind].
    rewrite after_ws, (elem_after _ _ _ _ _ Es).
    rewrite (IHl fuel n (acc ++ [v]) true r _ rest); [now rewrite <- app_assoc|lia|lia|now apply elemPos_after].
  - (* last member *) intros k v s w w1 w2 w' Hk Hg IH Hw Hw1 Hw2 Hw' fuel n acc first r st rest Hf Hn Hnd Hp.
    lens Hf. lens Hn.
    assert (Hp2 : elemPos true first r st (w ++ (34 :: k ++ [34]) ++ w1 ++ 58 :: w2 ++ s ++ w' ++ 125 :: rest)).
    { replace (w ++ (34 :: k ++ [34]) ++ w1 ++ 58 :: w2 ++ s ++ w' ++ 125 :: rest) with ((w ++ (34 :: k ++ [34]) ++ w1 ++ 58 :: w2 ++ s ++ w') ++ 125 :: rest); [exact Hp|].
      rewrite <- !app_assoc. cbn [app]. rewrite <- !app_assoc. reflexivity. }
    destruct (member_key _ _ _ _ _ _ _ Hk Hw Hw1 Hp2) as (st1 & E1 & E2 & Et & Es & Ek & Ec).
    destruct n as [|[|n]]; [lia|lia|]. cbn [readLoop]. rewrite E1. cbn [bind jtypeEqb]. unfold objBody at 1, jsonReadKey. rewrite E2. cbn [bind].
    unfold jsonReadKeyZN. rewrite Et. cbn [jnext bind]. rewrite (key_body _ _ Hk). cbn [bind]. rewrite (colon_ok _ _ Hw1). cbn [bind].
    rewrite (IH fuel (setText st1 (w2 ++ s ++ w' ++ 125 :: rest)) (w' ++ 125 :: rest)); [|lia| |apply follow_ws; [exact Hw'|reflexivity]].
    + cbn [bind]. replace (after (setText st1 (w2 ++ s ++ w' ++ 125 :: rest)) (w' ++ 125 :: rest)) with (endState true r true (w' ++ 125 :: rest))
        by (unfold after, setText, endState; cbn; rewrite Es; reflexivity).
      rewrite (end_type true true r w' rest Hw'). cbn [bind jtypeEqb]. rewrite kvPut_new; [reflexivity|].
      rewrite map_app in Hnd. apply NoDup_remove_2 in Hnd. rewrite app_nil_r in Hnd. exact Hnd.
    + unfold valuePos, setText. cbn. rewrite Es. split; [exact Ec|]. split; [exact Ek|]. exists w2. split; [exact Hw2|reflexivity].
  - (* member *) intros k v s w w1 w2 w' l t0 Hk Hg IH Hw Hw1 Hw2 Hw' Hl IHl fuel n acc first r st rest Hf Hn Hnd Hp.
    lens Hf. lens Hn.
    assert (Hp2 : elemPos true first r st (w ++ (34 :: k ++ [34]) ++ w1 ++ 58 :: w2 ++ s ++ w' ++ 44 :: t0 ++ 125 :: rest)).
    { replace (w ++ (34 :: k ++ [34]) ++ w1 ++ 58 :: w2 ++ s ++ w' ++ 44 :: t0 ++ 125 :: rest) with ((w ++ (34 :: k ++ [34]) ++ w1 ++ 58 :: w2 ++ s ++ w' ++ 44 :: t0) ++ 125 :: rest); [exact Hp|].
      rewrite <- !app_assoc. cbn [app]. rewrite <- !app_assoc. reflexivity. }
    destruct (member_key _ _ _ _ _ _ _ Hk Hw Hw1 Hp2) as (st1 & E1 & E2 & Et & Es & Ek & Ec).
    destruct n as [|n]; [lia|]. cbn [readLoop]. rewrite E1. cbn [bind jtypeEqb]. unfold objBody at 1, jsonReadKey. rewrite E2. cbn [bind].
    unfold jsonReadKeyZN. rewrite Et. cbn [jnext bind]. rewrite (key_body _ _ Hk). cbn [bind]. rewrite (colon_ok _ _ Hw1). cbn [bind].
    rewrite (IH fuel (setText st1 (w2 ++ s ++ w' ++ 44 :: t0 ++ 125 :: rest)) (w' ++ 44 :: t0 ++ 125 :: rest)); [|lia| |apply follow_ws; [exact Hw'|reflexivity]].
    + cbn [bind]. replace (after (setText st1 (w2 ++ s ++ w' ++ 44 :: t0 ++ 125 :: rest)) (w' ++ 44 :: t0 ++ 125 :: rest)) with (endState true r true (w' ++ 44 :: t0 ++ 125 :: rest))
        by (unfold after, setText, endState; cbn; rewrite Es; reflexivity).
      rewrite kvPut_new.
      * rewrite (IHl fuel n (acc ++ [(k, v)]) true r _ rest); [now rewrite <- app_assoc|lia|lia|now rewrite <- app_assoc|now apply elemPos_after].
      * rewrite map_app in Hnd. apply NoDup_remove_2 in Hnd. intros Hin. apply Hnd, in_or_app. now left.
    + unfold valuePos, setText. cbn. rewrite Es. split; [exact Ec|]. split; [exact Ek|]. exists w2. split; [exact Hw2|reflexivity].
Qed.
