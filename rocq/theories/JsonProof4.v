From Verif Require Import Base Str ConvertModel NumModel NumSpec NumProof JsonModel JsonSpec JsonProof JsonProof2 JsonProof3.
From Coq Require Import Permutation Sorted.
Open Scope Z_scope.

(** * The writer writes JSON *)

Section Ind.
  Variable P : jvar -> Prop.
  Hypothesis Hnull : P JNull.
  Hypothesis Hbool : forall b, P (JBool b).
  Hypothesis Hint : forall z, P (JInt z).
  Hypothesis Huint : forall z, P (JUInt z).
  Hypothesis Hstr : forall s, P (JStr s).
  Hypothesis Harr : forall l, Forall P l -> P (JArr l).
  Hypothesis Hobj : forall l, Forall (fun p => P (snd p)) l -> P (JObj l).
  Fixpoint jvar_ind' (v : jvar) : P v :=
    match v with
    | JNull => Hnull | JBool b => Hbool b | JInt z => Hint z | JUInt z => Huint z | JStr s => Hstr s
    | JArr l => Harr l ((fix go l := match l return Forall P l with [] => Forall_nil _ | x :: r => Forall_cons _ (jvar_ind' x) (go r) end) l)
    | JObj l => Hobj l ((fix go l := match l return Forall (fun p => P (snd p)) l with
                                     | [] => Forall_nil _ | p :: r => Forall_cons p (jvar_ind' (snd p)) (go r) end) l)
    end.
End Ind.

Lemma baseText_len f : forall k n, (1 <= k)%nat -> 0 <= n < 10 ^ Z.of_nat k -> (length (baseText f false 10 n) <= k)%nat.
Proof.
  induction f as [|f IH]; intros k n Hk Hn; cbn [baseText]; [cbn; lia|].
  destruct (Z.ltb_spec n 10); [cbn; lia|]. rewrite app_length. cbn [length].
  destruct k as [|[|k]]; [lia| |].
  - change (10 ^ Z.of_nat 1) with 10 in Hn. lia.
  - assert (length (baseText f false 10 (n / 10)) <= S k)%nat; [|lia]. apply IH; [lia|].
    replace (Z.of_nat (S (S k))) with (Z.succ (Z.of_nat (S k))) in Hn by lia. rewrite Z.pow_succ_r in Hn by lia.
    split; [apply Z.div_pos; lia|]. apply Z.div_lt_upper_bound; lia.
Qed.
Lemma numText_len n : 0 <= n < 2 ^ 64 -> (length (numText false 10 n) < 64)%nat.
Proof.
  intros H. unfold numText. pose proof (baseText_len 64 20 n ltac:(lia)) as L.
  assert (0 <= n < 10 ^ Z.of_nat 20). { split; [lia|]. apply Z.lt_trans with (2 ^ 64); [lia|]. reflexivity. }
  specialize (L H0). lia.
Qed.
Lemma escape_char c : jcharIs false c (jsonEscape c).
Proof.
  unfold jsonEscape.
  destruct (Z.eqb_spec c 34); [subst; apply c_esc; cbn; tauto|]. destruct (Z.eqb_spec c 92); [subst; apply c_esc; cbn; tauto|].
  destruct (Z.eqb_spec c 10); [subst; apply c_esc; cbn; tauto|]. destruct (Z.eqb_spec c 13); [subst; apply c_esc; cbn; tauto|].
  destruct (Z.eqb_spec c 9); [subst; apply c_esc; cbn; tauto|]. destruct (Z.eqb_spec c 8); [subst; apply c_esc; cbn; tauto|].
  destruct (Z.eqb_spec c 12); [subst; apply c_esc; cbn; tauto|]. now apply c_plain.
Qed.
Lemma escape_chars s : jcharsAre false s (flat_map jsonEscape s).
Proof. induction s as [|c s IH]; cbn; constructor; [apply escape_char|exact IH]. Qed.

Definition wvaluePos (w : jwrite) : Prop :=
  wcomplete w = false /\ match wstack w with (true, _, _) :: _ => wkey w = true | _ => wkey w = false end.
Definition wcomma (w : jwrite) : str := match wstack w with (false, true, _) :: _ => [44] | _ => [] end.
Definition wmark (l : list (bool * bool * str)) : list (bool * bool * str) := match l with [] => [] | (o, _, k) :: r => (o, true, k) :: r end.
Definition wafter (w : jwrite) (s : str) : jwrite :=
  mkJwrite (wtext w ++ wcomma w ++ s) (wmark (wstack w)) false (match wstack w with [] => true | _ => false end).
Definition wpushed (w : jwrite) (t : jtype) : jwrite :=
  if jtypeScalar t then wafter w []
  else mkJwrite (wtext w ++ wcomma w) ((match t with TObjectBegin => true | _ => false end, false, []) :: wmark (wstack w)) false false.
Lemma push_w w t : wvaluePos w -> jsonWritePush w t None = Ok (wpushed w t).
Proof.
  intros [Hc Hk]. unfold jsonWritePush, wpushed, wafter, wcomma. rewrite Hc.
  destruct (wstack w) as [|[[[|] [|]] k] r]; rewrite ?Hk; cbn [bind andb orb negb wmark];
    rewrite ?app_nil_r; destruct (jtypeScalar t); reflexivity.
Qed.
Lemma scalar_w w s t : wvaluePos w -> jtypeScalar t = true -> (let* w := jsonWritePush w t None in Ok (wcat w s)) = Ok (wafter w s).
Proof.
  intros H Ht. rewrite push_w by exact H. unfold wpushed. rewrite Ht. cbn [bind]. unfold wcat, wafter. cbn [wtext wstack wkey wcomplete].
  now rewrite app_nil_r, app_assoc.
Qed.

Definition writes (v : jvar) : Prop :=
  exists v' s, jsame v v' /\ jgram false v' s /\ forall w, wvaluePos w -> jsonWriteVarRecurse w v = Ok (wafter w s).

Definition goArr := fix go (l : list jvar) (w : jwrite) : res jwrite :=
  match l with [] => Ok w | x :: r => let* w := jsonWriteVarRecurse w x in go r w end.
Lemma arr_writes l : Forall writes l -> l <> [] ->
  exists l' s, Forall2 jsame l l' /\ jelems false l' s /\
  forall w first k r, wcomplete w = false -> wkey w = false -> wstack w = (false, first, k) :: r ->
    goArr l w = Ok (mkJwrite (wtext w ++ (if first then [44] else []) ++ s) ((false, true, k) :: r) false false).
Proof.
  induction 1 as [|x l Hx Hl IH]; intros Hne; [congruence|]. destruct Hx as (v' & s & Hsm & Hg & Hw).
  assert (E1 : forall w first k r, wcomplete w = false -> wkey w = false -> wstack w = (false, first, k) :: r ->
            jsonWriteVarRecurse w x = Ok (mkJwrite (wtext w ++ (if first then [44] else []) ++ s) ((false, true, k) :: r) false false)).
  { intros w first k r Hc Hk Es. rewrite Hw by (unfold wvaluePos; rewrite Es; auto). unfold wafter, wcomma. rewrite Es. destruct first; reflexivity. }
  destruct l as [|y l].
  - exists [v'], ([] ++ s ++ []). split; [repeat constructor; exact Hsm|]. split; [apply e_one; [exact Hg|constructor|constructor]|].
    intros w first k r Hc Hk Es. cbn [goArr]. rewrite (E1 _ _ _ _ Hc Hk Es). cbn [bind app]. now rewrite app_nil_r.
  - destruct (IH ltac:(discriminate)) as (l' & t & Hf & He & Hgo). exists (v' :: l'), ([] ++ s ++ [] ++ 44 :: t).
    split; [constructor; assumption|]. split; [apply e_more; [exact Hg|constructor|constructor|exact He]|].
    intros w first k r Hc Hk Es. change (goArr (x :: y :: l) w) with (let* w := jsonWriteVarRecurse w x in goArr (y :: l) w).
    rewrite (E1 _ _ _ _ Hc Hk Es). cbn [bind app]. rewrite (Hgo (mkJwrite (wtext w ++ (if first then [44] else []) ++ s) ((false, true, k) :: r) false false) true k r eq_refl eq_refl eq_refl). cbn [wtext]. rewrite <- !app_assoc. reflexivity.
Qed.

Definition stepObj := fun (rw : res jwrite) (p : str * (jwrite -> res jwrite)) => let* w := rw in let* w := jsonWriteKey w (fst p) in snd p w.
Definition closures (l : list (str * jvar)) : list (str * (jwrite -> res jwrite)) := map (fun p => (fst p, fun w => jsonWriteVarRecurse w (snd p))) l.
Definition keysUp (last : str) (l : list (str * jvar)) : Prop :=
  StronglySorted slt (map fst l) /\ match l with [] => True | p :: _ => last = [] \/ slt last (fst p) end.

Lemma key_w w k first last r : wcomplete w = false -> wkey w = false -> wstack w = (true, first, last) :: r -> (length k < 67)%nat ->
  (last = [] \/ slt last k) ->
  jsonWriteKey w k = Ok (mkJwrite (wtext w ++ (if first then [44] else []) ++ 34 :: k ++ [34;58]) ((true, true, k) :: r) true false).
Proof.
  intros Hc Hk Es Hl Hlt. unfold jsonWriteKey, jsonWritePush. rewrite Hc, Es, Hk. cbn [jtypeScalar].
  assert (E : match last with [] => false | _ => strLeb k last end = false).
  { destruct Hlt as [-> |H]; [reflexivity|]. destruct last; [reflexivity|]. unfold strLeb, slt in *. rewrite strCmp_antisym, H. reflexivity. }
  rewrite E. destruct (Nat.leb_spec 67 (length k)); [lia|]. cbn [bind negb orb]. rewrite andb_true_r. unfold wcat. cbn [wtext wstack wkey wcomplete].
  rewrite <- app_assoc. reflexivity.
Qed.
Lemma obj_writes l : Forall (fun p => writes (snd p) /\ jkeyText (fst p) /\ (length (fst p) < 67)%nat) l -> l <> [] -> StronglySorted slt (map fst l) ->
  exists l' s, Forall2 (fun p q => fst p = fst q /\ jsame (snd p) (snd q)) l l' /\ jmembers false l' s /\
  forall w first last r, wcomplete w = false -> wkey w = false -> wstack w = (true, first, last) :: r -> keysUp last l ->
    exists k, fold_left stepObj (closures l) (Ok w) = Ok (mkJwrite (wtext w ++ (if first then [44] else []) ++ s) ((true, true, k) :: r) false false).
Proof.
  induction 1 as [|[key x] l Hx Hl IH]; intros Hne Hss; [congruence|]. cbn [fst snd] in *. destruct Hx as ((v' & s & Hsm & Hg & Hw) & Hkt & Hlen).
  assert (E1 : forall w first last r, wcomplete w = false -> wkey w = false -> wstack w = (true, first, last) :: r -> (last = [] \/ slt last key) ->
            stepObj (Ok w) (key, fun w => jsonWriteVarRecurse w x) =
            Ok (mkJwrite (wtext w ++ (if first then [44] else []) ++ (34 :: key ++ [34]) ++ 58 :: s) ((true, true, key) :: r) false false)).
  { intros w first last r Hc Hk Es Hlt. unfold stepObj. cbn [bind fst snd]. rewrite (key_w _ _ _ _ _ Hc Hk Es Hlen Hlt). cbn [bind].
    rewrite Hw by (split; reflexivity). unfold wafter, wcomma. cbn [wtext wstack wmark]. f_equal. f_equal.
    rewrite <- !app_assoc. cbn [app]. rewrite <- !app_assoc. reflexivity. }
  destruct l as [|[key2 y] l].
  - exists [(key, v')], ([] ++ (34 :: key ++ [34]) ++ [] ++ 58 :: [] ++ s ++ []). split; [repeat constructor; exact Hsm|].
    split; [apply m_one; [exact Hkt|exact Hg|constructor|constructor|constructor|constructor]|].
    intros w first last r Hc Hk Es [Hs Hlast]. exists key. change (closures [(key, x)]) with [(key, fun w => jsonWriteVarRecurse w x)]. cbn [fold_left]. rewrite (E1 _ _ _ _ Hc Hk Es Hlast).
    f_equal. f_equal. cbn [app]. rewrite app_nil_r. reflexivity.
  - assert (Hss' : StronglySorted slt (map fst ((key2, y) :: l)) /\ slt key key2).
    { cbn [map fst] in *. inversion Hss as [|? ? H1 H2]; subst. split; [exact H1|]. now inversion H2. }
    destruct (IH ltac:(discriminate) (proj1 Hss')) as (l' & t & Hf & He & Hgo). exists ((key, v') :: l'), ([] ++ (34 :: key ++ [34]) ++ [] ++ 58 :: [] ++ s ++ [] ++ 44 :: t).
    split; [constructor; [split; [reflexivity|exact Hsm]|exact Hf]|].
    split; [apply m_more; [exact Hkt|exact Hg|constructor|constructor|constructor|constructor|exact He]|].
    intros w first last r Hc Hk Es [Hs Hlast].
    change (closures ((key, x) :: (key2, y) :: l)) with ((key, fun w => jsonWriteVarRecurse w x) :: closures ((key2, y) :: l)).
    cbn [fold_left]. rewrite (E1 _ _ _ _ Hc Hk Es Hlast). cbn [map fst] in Hs.
    destruct (Hgo (mkJwrite (wtext w ++ (if first then [44] else []) ++ (34 :: key ++ [34]) ++ 58 :: s) ((true, true, key) :: r) false false) true key r eq_refl eq_refl eq_refl) as [k Ek].
    { split; [exact (proj1 Hss')|]. right. exact (proj2 Hss'). }
    exists k. rewrite Ek. cbn [wtext app]. f_equal. f_equal. rewrite <- !app_assoc. cbn [app]. rewrite <- !app_assoc. reflexivity.
Qed.

Lemma insertBy_map {A B} (g : A -> B) (ka : A -> str) (kb : B -> str) leb : (forall a, kb (g a) = ka a) ->
  forall x l, insertBy kb leb (g x) (map g l) = map g (insertBy ka leb x l).
Proof. intros H x l. induction l as [|y l IH]; cbn; [reflexivity|]. rewrite !H. destruct (leb (ka x) (ka y)); cbn; [reflexivity|]. now rewrite IH. Qed.
Lemma sortBy_map {A B} (g : A -> B) (ka : A -> str) (kb : B -> str) leb : (forall a, kb (g a) = ka a) ->
  forall l, sortBy kb leb (map g l) = map g (sortBy ka leb l).
Proof. intros H l. induction l as [|y l IH]; cbn; [reflexivity|]. rewrite IH. now apply insertBy_map. Qed.
Lemma map_sort {A} (l : list (str * A)) : map fst (kvSorted l) = strLstSortAsc (map fst l).
Proof. unfold kvSorted, strLstSortAsc. symmetry. now apply (sortBy_map fst fst (fun s => s)). Qed.

Lemma sle_nodup_slt l : StronglySorted sle l -> NoDup l -> StronglySorted slt l.
Proof.
  induction 1 as [|a l Hs IH Hf]; intros Hnd; constructor; inversion Hnd; subst; [auto|].
  rewrite Forall_forall in *. intros x Hx. specialize (Hf _ Hx). unfold sle, slt in *.
  destruct (strCmp a x) eqn:E; [apply strCmp_eq in E; subst; contradiction|reflexivity|congruence].
Qed.

Lemma var_writes v : jwritable v -> writes v.
Proof.
  induction v as [|b|z|z|s|l IH|l IH] using jvar_ind'; intros Hv; inversion Hv as [|b' E|z' Hz E|z' Hz E|s' Hs E|l' Hl E|l' Hnd Hl E]; subst.
  - exists JNull, nullZ. split; [constructor|]. split; [constructor|]. intros w Hw. now apply scalar_w.
  - exists (JBool b), (if b then trueZ else falseZ). split; [constructor|]. split; [destruct b; constructor|]. intros w Hw. now apply scalar_w.
  - change (2 ^ 63) with 9223372036854775808 in Hz. destruct (Z.ltb_spec z 0).
    + exists (JInt z), (45 :: numText false 10 (- z)). split; [constructor|].
      split.
      * replace z with (- - z) at 1 by lia. apply g_int; [apply numText_is; unfold two64; lia|apply numText_len; lia|lia].
      * intros w Hw. cbn [jsonWriteVarRecurse]. unfold jsonWriteInt, cvtIntToZ, intText. replace (z <? 0) with true by lia. now apply scalar_w.
    + exists (JUInt z), (numText false 10 z). split; [constructor|].
      split.
      * apply g_uint; [apply numText_is; unfold two64; lia|apply numText_len; lia|lia].
      * intros w Hw. cbn [jsonWriteVarRecurse]. unfold jsonWriteInt, cvtIntToZ, intText. replace (z <? 0) with false by lia. now apply scalar_w.
  - exists (JUInt z), (numText false 10 z). split; [constructor|].
    split.
    + apply g_uint; [apply numText_is; [lia|]|apply numText_len|]; unfold two64; change (2 ^ 64) with 18446744073709551616 in *; lia.
    + intros w Hw. now apply scalar_w.
  - exists (JStr s), (34 :: flat_map jsonEscape s ++ [34]). split; [constructor|]. split; [apply g_str, escape_chars|].
    intros w Hw. now apply scalar_w.
  - destruct l as [|x l].
    + exists (JArr []), [91;93]. split; [constructor; constructor|]. split; [apply (g_arr0 false []); constructor|].
      intros w Hw. cbn [jsonWriteVarRecurse]. unfold jsonWriteBegin. rewrite (push_w _ _ Hw). cbn [bind]. unfold jsonWriteEnd, jsonWritePop, wpushed, wcat, wafter.
      cbn [jtypeScalar wtext wstack wkey wcomplete tl]. f_equal. rewrite <- !app_assoc. destruct (wstack w) as [|[[? ?] ?] ?]; reflexivity.
    + assert (Hw : Forall writes (x :: l)).
      { rewrite Forall_forall in *. intros y Hy. apply IH; [exact Hy|]. now apply Hl. }
      destruct (arr_writes _ Hw ltac:(discriminate)) as (l' & s & Hf & He & Hgo).
      exists (JArr l'), (91 :: s ++ [93]). split; [now constructor|]. split; [now apply g_arr|].
      intros w Hv'. change (jsonWriteVarRecurse w (JArr (x :: l))) with (let* w := jsonWriteBegin w false in let* w := goArr (x :: l) w in Ok (jsonWriteEnd w false)).
      unfold jsonWriteBegin. rewrite (push_w _ _ Hv'). cbn [bind].
      rewrite (Hgo (wcat (wpushed w TArrayBegin) [91]) false [] (wmark (wstack w)) eq_refl eq_refl eq_refl). cbn [bind].
      unfold jsonWriteEnd, jsonWritePop, wpushed, wcat, wafter. cbn [jtypeScalar wtext wstack wkey wcomplete tl]. f_equal.
      rewrite <- !app_assoc. cbn [app]. destruct (wstack w) as [|[[? ?] ?] ?]; reflexivity.
  - assert (Eo : forall w, jsonWriteVarRecurse w (JObj l) = let* w := jsonWriteBegin w true in
                  let* w := fold_left stepObj (kvSorted (closures l)) (Ok w) in Ok (jsonWriteEnd w true)).
    { assert (Eg : (fix go (l : list (str * jvar)) : list (str * (jwrite -> res jwrite)) :=
                      match l with [] => [] | (k, x) :: r => (k, fun w => jsonWriteVarRecurse w x) :: go r end) l = closures l)
        by (clear; induction l as [|[k x] l IHl]; [reflexivity|]; cbn; f_equal; exact IHl).
      intros w. cbn [jsonWriteVarRecurse]. rewrite Eg. reflexivity. }
    assert (Ec : kvSorted (closures l) = closures (kvSorted l)).
    { unfold kvSorted, closures. now apply (sortBy_map _ fst fst). }
    assert (Hp : Permutation l (kvSorted l)) by (symmetry; apply sortBy_perm).
    assert (Hss : StronglySorted slt (map fst (kvSorted l))).
    { apply sle_nodup_slt; [rewrite map_sort; apply strLstSortAsc_sorted|]. eapply Permutation_NoDup; [|exact Hnd]. now apply Permutation_map. }
    assert (Hall : Forall (fun p => writes (snd p) /\ jkeyText (fst p) /\ (length (fst p) < 67)%nat) (kvSorted l)).
    { rewrite Forall_forall in *. intros p Hin. apply (Permutation_in _ (Permutation_sym Hp)) in Hin. destruct (Hl _ Hin) as (A & _ & B & C). auto. }
    destruct (kvSorted l) as [|x m] eqn:Em.
    + apply Permutation_sym, Permutation_nil in Hp. subst l. exists (JObj []), [123;125]. split; [econstructor; [reflexivity|constructor]|].
      split; [apply (g_obj0 false []); constructor|].
      intros w Hw. rewrite Eo. unfold jsonWriteBegin. rewrite (push_w _ _ Hw). cbn [bind]. unfold jsonWriteEnd, jsonWritePop, wpushed, wcat, wafter.
      cbn [jtypeScalar wtext wstack wkey wcomplete tl closures map kvSorted sortBy fold_left bind]. f_equal. rewrite <- !app_assoc.
      destruct (wstack w) as [|[[? ?] ?] ?]; reflexivity.
    + destruct (obj_writes _ Hall ltac:(discriminate) Hss) as (l' & s & Hf & He & Hgo).
      exists (JObj l'), (123 :: s ++ [125]). split; [econstructor; eassumption|]. split.
      { apply g_obj; [exact He|]. replace (map fst l') with (map fst (x :: m)); [|clear -Hf; induction Hf as [|a b ? ? [E _] ? IHf]; [reflexivity|]; cbn; now rewrite E, IHf].
        eapply Permutation_NoDup; [|exact Hnd]. now apply Permutation_map. }
      intros w Hv'. rewrite Eo, Ec. unfold jsonWriteBegin. rewrite (push_w _ _ Hv'). cbn [bind].
      destruct (Hgo (wcat (wpushed w TObjectBegin) [123]) false [] (wmark (wstack w)) eq_refl eq_refl eq_refl) as [k Ek]; [split; [exact Hss|now left]|].
      rewrite Ek. cbn [bind].
      unfold jsonWriteEnd, jsonWritePop, wpushed, wcat, wafter. cbn [jtypeScalar wtext wstack wkey wcomplete tl]. f_equal.
      rewrite <- !app_assoc. cbn [app]. destruct (wstack w) as [|[[? ?] ?] ?]; reflexivity.
Qed.

Theorem fromVar_ok v : jwritable v -> exists v' s, jsonFromVar v = Ok s /\ jsame v v' /\ jgram false v' s.
Proof.
  intros H. destruct (var_writes _ H) as (v' & s & A & B & C). exists v', s. split; [|auto].
  unfold jsonFromVar. rewrite C by (split; reflexivity). reflexivity.
Qed.
Theorem toVar_ok u v s w rest : jgram u v s -> wsp w -> follow rest -> jsonToVar (w ++ s ++ rest) = Ok v.
Proof.
  intros H Hw Hf. unfold jsonToVar, jsonReadVar.
  rewrite (proj1 (read_grammar u) v s H _ _ rest); [reflexivity| | |exact Hf].
  - cbn. rewrite !app_length. lia.
  - split; [reflexivity|]. cbn. split; [reflexivity|]. exists w. auto.
Qed.
Theorem validate_ok v s w w' : jgram false v s -> wsp w -> wsp w' -> jsonValidate (w ++ s ++ w') = Ok tt.
Proof.
  intros H Hw Hw'. unfold jsonValidate, jsonReadSkip.
  rewrite (proj1 skip_grammar v s H _ _ w').
  - cbn. rewrite <- (app_nil_r w'). rewrite jws_app by exact Hw'. reflexivity.
  - cbn. rewrite !app_length. lia.
  - split; [reflexivity|]. cbn. split; [reflexivity|]. exists w. auto.
  - destruct Hw'; [exact I|]. cbn. unfold isDigit. lia.
Qed.
