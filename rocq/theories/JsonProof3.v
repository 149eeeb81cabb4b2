From Verif Require Import Base Str ConvertModel NumModel NumSpec NumProof JsonModel JsonSpec JsonProof JsonProof2.
Open Scope Z_scope.

(** jsonReadSkip() passes over every JSON text without \u escapes. *)
Definition skipArr (f : nat) := fun (_ : unit) (st : jread) => let* st := jsonReadSkipRecurse f st in Ok (tt, st).
Definition skipObj (f : nat) := fun (_ : unit) (st : jread) =>
  let* st := jsonReadPush st TString true in let* st := jsonReadSkipStr st in let* s := jsonReadColon (jtext st) in
  let* st := jsonReadSkipRecurse f (setText st s) in Ok (tt, st).
Lemma setText2 st a b : setText (setText st a) b = setText st b.
Proof. reflexivity. Qed.

Lemma skip_grammar :
  (forall v s, jgram false v s -> forall fuel st rest, (length s < fuel)%nat -> valuePos st (s ++ rest) -> follow rest ->
     jsonReadSkipRecurse fuel st = Ok (after st rest)) /\
  (forall l s, jelems false l s -> forall fuel n first r st rest, (length s < fuel)%nat -> (length s < n)%nat ->
     elemPos false first r st (s ++ 93 :: rest) ->
     readLoop n TArrayEnd (skipArr fuel) tt st = Ok (tt, endState false r true (93 :: rest))) /\
  (forall l s, jmembers false l s -> forall fuel n first r st rest, (length s < fuel)%nat -> (length s < n)%nat ->
     elemPos true first r st (s ++ 125 :: rest) ->
     readLoop n TObjectEnd (skipObj fuel) tt st = Ok (tt, endState true r true (125 :: rest))).
Proof.
  apply (jgram_mutind false
    (fun v s _ => forall fuel st rest, (length s < fuel)%nat -> valuePos st (s ++ rest) -> follow rest ->
       jsonReadSkipRecurse fuel st = Ok (after st rest))
    (fun l s _ => forall fuel n first r st rest, (length s < fuel)%nat -> (length s < n)%nat ->
       elemPos false first r st (s ++ 93 :: rest) ->
       readLoop n TArrayEnd (skipArr fuel) tt st = Ok (tt, endState false r true (93 :: rest)))
    (fun l s _ => forall fuel n first r st rest, (length s < fuel)%nat -> (length s < n)%nat ->
       elemPos true first r st (s ++ 125 :: rest) ->
       readLoop n TObjectEnd (skipObj fuel) tt st = Ok (tt, endState true r true (125 :: rest)))).
  - (* null *) intros fuel st rest Hf Hp _. destruct fuel as [|f]; [cbn in Hf; lia|]. cbn [app] in Hp. cbn [jsonReadSkipRecurse].
    assert (Hh : headOk (110 :: 117 :: 108 :: 108 :: rest) TNull) by (split; [split; [reflexivity|discriminate]|reflexivity]).
    destruct (valuePos_type _ _ _ Hp Hh) as [E Hq]. rewrite E. cbn [bind]. unfold jsonReadNull. rewrite (valuePos_push _ _ _ Hq Hh). reflexivity.
  - (* true *) intros fuel st rest Hf Hp _. destruct fuel as [|f]; [cbn in Hf; lia|]. cbn [app] in Hp. cbn [jsonReadSkipRecurse].
    assert (Hh : headOk (116 :: 114 :: 117 :: 101 :: rest) TBool) by (split; [split; [reflexivity|discriminate]|reflexivity]).
    destruct (valuePos_type _ _ _ Hp Hh) as [E Hq]. rewrite E. cbn [bind]. unfold jsonReadBool. rewrite (valuePos_push _ _ _ Hq Hh). reflexivity.
  - (* false *) intros fuel st rest Hf Hp _. destruct fuel as [|f]; [cbn in Hf; lia|]. cbn [app] in Hp. cbn [jsonReadSkipRecurse].
    assert (Hh : headOk (102 :: 97 :: 108 :: 115 :: 101 :: rest) TBool) by (split; [split; [reflexivity|discriminate]|reflexivity]).
    destruct (valuePos_type _ _ _ Hp Hh) as [E Hq]. rewrite E. cbn [bind]. unfold jsonReadBool. rewrite (valuePos_push _ _ _ Hq Hh). reflexivity.
  - (* uint *) intros ds v Hd Hl Hv fuel st rest Hf Hp Hr. destruct fuel as [|f]; [lia|]. cbn [jsonReadSkipRecurse].
    pose proof (digits_head _ _ rest Hd) as Hh.
    destruct (valuePos_type _ _ _ Hp Hh) as [E Hq]. rewrite E. cbn [bind]. rewrite (valuePos_push _ _ _ Hq Hh). cbn [bind].
    rewrite (number_uint _ ds v rest Hd Hl Hv Hr); reflexivity.
  - (* int *) intros ds v Hd Hl Hv fuel st rest Hf Hp Hr. destruct fuel as [|f]; [lia|]. cbn [jsonReadSkipRecurse]. cbn [app] in Hp.
    assert (Hh : headOk (45 :: ds ++ rest) TNumber) by (split; [split; [reflexivity|discriminate]|reflexivity]).
    destruct (valuePos_type _ _ _ Hp Hh) as [E Hq]. rewrite E. cbn [bind]. rewrite (valuePos_push _ _ _ Hq Hh). cbn [bind].
    rewrite (number_int _ ds v rest Hd Hl Hv Hr); reflexivity.
  - (* string *) intros s t Hs fuel st rest Hf Hp _. destruct fuel as [|f]; [lia|]. cbn [jsonReadSkipRecurse]. cbn [app] in Hp. rewrite <- app_assoc in Hp.
    cbn [app] in Hp.
    assert (Hh : headOk (34 :: t ++ 34 :: rest) TString) by (split; [split; [reflexivity|discriminate]|reflexivity]).
    destruct (valuePos_type _ _ _ Hp Hh) as [E Hq]. rewrite E. cbn [bind]. rewrite (valuePos_push _ _ _ Hq Hh). cbn [bind]. unfold jsonReadSkipStr.
    change (jtext (pushed (jsonReadConsumeWhiteSpace st) (34 :: t ++ 34 :: rest) TString)) with (34 :: t ++ 34 :: rest).
    cbn [jnext bind]. rewrite (chars_skip _ _ Hs). reflexivity.
  - (* empty array *) intros w Hw fuel st rest Hf Hp _. destruct fuel as [|f]; [lia|]. cbn [jsonReadSkipRecurse]. cbn [app] in Hp. rewrite <- app_assoc in Hp.
    cbn [app] in Hp.
    assert (Hh : headOk (91 :: w ++ 93 :: rest) TArrayBegin) by (split; [split; [reflexivity|discriminate]|reflexivity]).
    destruct (valuePos_type _ _ _ Hp Hh) as [E Hq]. rewrite E. cbn [bind]. unfold jsonReadArrayBegin.
    destruct (begin_elemPos _ _ false Hq) as [E1 E2]. rewrite E1. cbn [bind]. unfold loopFuel. cbn [readLoop].
    rewrite (end_type false false _ w rest Hw). cbn [bind jtypeEqb]. unfold jsonReadArrayEnd.
    rewrite (end_pop false false _ rest (jsonReadConsumeWhiteSpace st) eq_refl (proj1 Hq)). reflexivity.
  - (* array *) intros l s Hs IH fuel st rest Hf Hp _. destruct fuel as [|f]; [lia|]. cbn [jsonReadSkipRecurse]. cbn [app] in Hp. rewrite <- app_assoc in Hp.
    cbn [app] in Hp.
    assert (Hh : headOk (91 :: s ++ 93 :: rest) TArrayBegin) by (split; [split; [reflexivity|discriminate]|reflexivity]).
    destruct (valuePos_type _ _ _ Hp Hh) as [E Hq]. rewrite E. cbn [bind]. unfold jsonReadArrayBegin.
    destruct (begin_elemPos _ _ false Hq) as [E1 E2]. rewrite E1. cbn [bind]. cbn [length] in Hf. rewrite app_length in Hf.
    change (fun (_ : unit) (st0 : jread) => let* st1 := jsonReadSkipRecurse f st0 in Ok (tt, st1)) with (skipArr f).
    rewrite (IH f _ false (markFirst (jstack (jsonReadConsumeWhiteSpace st))) _ rest); [|lia| |exact E2].
    + cbn [bind app]. unfold jsonReadArrayEnd.
      rewrite (end_pop false true _ rest (jsonReadConsumeWhiteSpace st) eq_refl (proj1 Hq)). reflexivity.
    + unfold loopFuel, endState. cbn [jtext]. rewrite app_length. lia.
  - (* empty object *) intros w Hw fuel st rest Hf Hp _. destruct fuel as [|f]; [lia|]. cbn [jsonReadSkipRecurse]. cbn [app] in Hp. rewrite <- app_assoc in Hp.
    cbn [app] in Hp.
    assert (Hh : headOk (123 :: w ++ 125 :: rest) TObjectBegin) by (split; [split; [reflexivity|discriminate]|reflexivity]).
    destruct (valuePos_type _ _ _ Hp Hh) as [E Hq]. rewrite E. cbn [bind]. unfold jsonReadObjectBegin.
    destruct (begin_elemPos _ _ true Hq) as [E1 E2]. rewrite E1. cbn [bind]. unfold loopFuel. cbn [readLoop].
    rewrite (end_type true false _ w rest Hw). cbn [bind jtypeEqb]. unfold jsonReadObjectEnd.
    rewrite (end_pop true false _ rest (jsonReadConsumeWhiteSpace st) eq_refl (proj1 Hq)). reflexivity.
  - (* object *) intros l s Hs IH Hnd fuel st rest Hf Hp _. destruct fuel as [|f]; [lia|]. cbn [jsonReadSkipRecurse]. cbn [app] in Hp. rewrite <- app_assoc in Hp.
    cbn [app] in Hp.
    assert (Hh : headOk (123 :: s ++ 125 :: rest) TObjectBegin) by (split; [split; [reflexivity|discriminate]|reflexivity]).
    destruct (valuePos_type _ _ _ Hp Hh) as [E Hq]. rewrite E. cbn [bind]. unfold jsonReadObjectBegin.
    destruct (begin_elemPos _ _ true Hq) as [E1 E2]. rewrite E1. cbn [bind]. cbn [length] in Hf. rewrite app_length in Hf.
    change (fun (_ : unit) (st0 : jread) => let* st1 := jsonReadPush st0 TString true in let* st2 := jsonReadSkipStr st1 in let* s0 := jsonReadColon (jtext st2) in let* st3 := jsonReadSkipRecurse f (setText st2 s0) in Ok (tt, st3)) with (skipObj f).
    rewrite (IH f _ false (markFirst (jstack (jsonReadConsumeWhiteSpace st))) _ rest); [|lia| |exact E2].
    + cbn [bind app]. unfold jsonReadObjectEnd.
      rewrite (end_pop true true _ rest (jsonReadConsumeWhiteSpace st) eq_refl (proj1 Hq)). reflexivity.
    + unfold loopFuel, endState. cbn [jtext]. rewrite app_length. lia.
  - (* last element *) intros v s w w' Hg IH Hw Hw' fuel n first r st rest Hf Hn Hp. rewrite !app_length in Hf, Hn.
    rewrite <- !app_assoc in Hp. pose proof (elemPos_value _ _ _ _ _ Hw Hp) as Hv.
    destruct n as [|[|n]]; [lia| |].
    { exfalso. assert (length s <> 0%nat) by (destruct Hg; cbn; try discriminate; destruct (digitsIs_all _ _ H); destruct ds; cbn; congruence). lia. }
    destruct Hp as (Hc & Hk & Es & _).
    assert (Hh : exists t, headOk (s ++ w' ++ 93 :: rest) t /\ t <> TArrayEnd).
    { destruct Hg; try (eexists; split; [split; [split; [reflexivity|discriminate]|reflexivity]|discriminate]).
      exists TNumber. split; [eapply digits_head; eassumption|discriminate]. }
    destruct Hh as (t & Hh & Ht). destruct (valuePos_type _ _ _ Hv Hh) as [E Hq]. cbn [readLoop]. rewrite E. cbn [bind].
    replace (jtypeEqb t TArrayEnd) with false by (now destruct t).
    unfold skipArr at 1. rewrite (IH fuel _ (w' ++ 93 :: rest)); [|lia|exact Hq|apply follow_ws; [exact Hw'|reflexivity]]. cbn [bind].
    rewrite after_ws, (elem_after _ _ _ _ _ Es). rewrite (end_type false true r w' rest Hw'). reflexivity.
  - (* element *) intros v s w w' l t0 Hg IH Hw Hw' Hl IHl fuel n first r st rest Hf Hn Hp. rewrite !app_length in Hf, Hn. cbn [length] in Hf, Hn.
    rewrite <- !app_assoc in Hp. cbn [app] in Hp. pose proof (elemPos_value _ _ _ _ _ Hw Hp) as Hv.
    destruct n as [|n]; [lia|]. destruct Hp as (Hc & Hk & Es & _).
    assert (Hh : exists t, headOk (s ++ w' ++ 44 :: t0 ++ 93 :: rest) t /\ t <> TArrayEnd).
    { destruct Hg; try (eexists; split; [split; [split; [reflexivity|discriminate]|reflexivity]|discriminate]).
      exists TNumber. split; [eapply digits_head; eassumption|discriminate]. }
    destruct Hh as (t & Hh & Ht). destruct (valuePos_type _ _ _ Hv Hh) as [E Hq]. cbn [readLoop]. rewrite E. cbn [bind].
    replace (jtypeEqb t TArrayEnd) with false by (now destruct t).
    unfold skipArr at 1. rewrite (IH fuel _ (w' ++ 44 :: t0 ++ 93 :: rest)); [|lia|exact Hq|apply follow_ws; [exact Hw'|reflexivity]]. cbn [bind].
    rewrite after_ws, (elem_after _ _ _ _ _ Es).
    rewrite (IHl fuel n true r _ rest); [reflexivity|lia|lia|now apply elemPos_after].
  - (* last member *) intros k v s w w1 w2 w' Hk Hg IH Hw Hw1 Hw2 Hw' fuel n first r st rest Hf Hn Hp.
    lens Hf. lens Hn.
    assert (Hp2 : elemPos true first r st (w ++ (34 :: k ++ [34]) ++ w1 ++ 58 :: w2 ++ s ++ w' ++ 125 :: rest)).
    { replace (w ++ (34 :: k ++ [34]) ++ w1 ++ 58 :: w2 ++ s ++ w' ++ 125 :: rest) with ((w ++ (34 :: k ++ [34]) ++ w1 ++ 58 :: w2 ++ s ++ w') ++ 125 :: rest); [exact Hp|].
      rewrite <- !app_assoc. cbn [app]. rewrite <- !app_assoc. reflexivity. }
    destruct (member_key _ _ _ _ _ _ _ Hk Hw Hw1 Hp2) as (st1 & E1 & E2 & Et & Es & Ek & Ec).
    destruct n as [|[|n]]; [lia|lia|]. cbn [readLoop]. rewrite E1. cbn [bind jtypeEqb]. unfold skipObj at 1. rewrite E2. cbn [bind].
    unfold jsonReadSkipStr. rewrite Et. cbn [jnext bind]. rewrite (key_skip _ _ Hk). cbn [bind jtext setText]. rewrite (colon_ok _ _ Hw1). cbn [bind].
    rewrite setText2.
    rewrite (IH fuel (setText st1 (w2 ++ s ++ w' ++ 125 :: rest)) (w' ++ 125 :: rest)); [|lia| |apply follow_ws; [exact Hw'|reflexivity]].
    + cbn [bind]. replace (after (setText st1 (w2 ++ s ++ w' ++ 125 :: rest)) (w' ++ 125 :: rest)) with (endState true r true (w' ++ 125 :: rest))
        by (unfold after, setText, endState; cbn; rewrite Es; reflexivity).
      rewrite (end_type true true r w' rest Hw'). cbn [bind jtypeEqb]. reflexivity.
    + unfold valuePos, setText. cbn. rewrite Es. split; [exact Ec|]. split; [exact Ek|]. exists w2. split; [exact Hw2|reflexivity].
  - (* member *) intros k v s w w1 w2 w' l t0 Hk Hg IH Hw Hw1 Hw2 Hw' Hl IHl fuel n first r st rest Hf Hn Hp.
    lens Hf. lens Hn.
    assert (Hp2 : elemPos true first r st (w ++ (34 :: k ++ [34]) ++ w1 ++ 58 :: w2 ++ s ++ w' ++ 44 :: t0 ++ 125 :: rest)).
    { replace (w ++ (34 :: k ++ [34]) ++ w1 ++ 58 :: w2 ++ s ++ w' ++ 44 :: t0 ++ 125 :: rest) with ((w ++ (34 :: k ++ [34]) ++ w1 ++ 58 :: w2 ++ s ++ w' ++ 44 :: t0) ++ 125 :: rest); [exact Hp|].
      rewrite <- !app_assoc. cbn [app]. rewrite <- !app_assoc. reflexivity. }
    destruct (member_key _ _ _ _ _ _ _ Hk Hw Hw1 Hp2) as (st1 & E1 & E2 & Et & Es & Ek & Ec).
    destruct n as [|n]; [lia|]. cbn [readLoop]. rewrite E1. cbn [bind jtypeEqb]. unfold skipObj at 1. rewrite E2. cbn [bind].
    unfold jsonReadSkipStr. rewrite Et. cbn [jnext bind]. rewrite (key_skip _ _ Hk). cbn [bind jtext setText]. rewrite (colon_ok _ _ Hw1). cbn [bind].
    rewrite setText2.
    rewrite (IH fuel (setText st1 (w2 ++ s ++ w' ++ 44 :: t0 ++ 125 :: rest)) (w' ++ 44 :: t0 ++ 125 :: rest)); [|lia| |apply follow_ws; [exact Hw'|reflexivity]].
    + cbn [bind]. replace (after (setText st1 (w2 ++ s ++ w' ++ 44 :: t0 ++ 125 :: rest)) (w' ++ 44 :: t0 ++ 125 :: rest)) with (endState true r true (w' ++ 44 :: t0 ++ 125 :: rest))
        by (unfold after, setText, endState; cbn; rewrite Es; reflexivity).
      rewrite (IHl fuel n true r _ rest); [reflexivity|lia|lia|now apply elemPos_after].
    + unfold valuePos, setText. cbn. rewrite Es. split; [exact Ec|]. split; [exact Ek|]. exists w2. split; [exact Hw2|reflexivity].
Qed.
