From Verif Require Import Base Str ConvertModel NumModel NumSpec NumProof JsonModel JsonSpec JsonProof JsonProof2 JsonProof3 JsonProof4 JsonProof5 JsonProof6 JsonProof7.
From Coq Require Import Permutation.
Open Scope Z_scope.

(** * Validation from an earlier '=' never reads past the end *)
Lemma skipBody_eq_ub n : forall q v, (length q <= n)%nat -> skipBody (q ++ 61 :: v) = UB -> v <> [] -> skipBody v = UB.
Proof.
  induction n as [|n IH]; intros q v Hn H Hv; [destruct q; [exact H|cbn in Hn; lia]|destruct q as [|c q]; [exact H|]].
  cbn [app skipBody] in H. cbn [length] in *.
  destruct (c =? 34); [discriminate|].
  destruct (c =? 92); [|apply (IH q); [lia|exact H|exact Hv]].
  destruct q as [|e q]; [cbn [app] in H; change (61 =? 117) with false in H; exact H|]. cbn [app length] in *.
  destruct (e =? 117); [|apply (IH q); [lia|exact H|exact Hv]].
  destruct q as [|a [|b [|x [|d [|y q]]]]]; cbn [app length] in *.
  - destruct v as [|v1 [|v2 [|v3 v4]]]; discriminate.
  - destruct v as [|v1 [|v2 v3]]; try discriminate. destruct (isDigit a); discriminate.
  - destruct v as [|v1 v2]; try discriminate. destruct (isDigit a), (isDigit b); discriminate.
  - destruct (isDigit a), (isDigit b), (isDigit x); discriminate.
  - destruct (_ && _); [|discriminate]. exact H.
  - destruct (_ && _); [|discriminate]. apply (IH q); [lia|exact H|exact Hv].
Qed.
Theorem toks_eq2 f s f' r0 : toks f s f' r0 -> forall p v, s = p ++ 61 :: v -> (exists q, r0 = q ++ 61 :: v) \/ exists r, skipBody v = Ok r /\ toks true r f' r0.
Proof.
  induction 1 as [f s|f s f1 s1 f2 s2 Ht Hs IH]; intros p v E; [left; now exists p|].
  assert (C : forall c, c <> 61 -> c :: s1 = p ++ 61 :: v -> (exists q, s2 = q ++ 61 :: v) \/ exists r, skipBody v = Ok r /\ toks true r f2 s2).
  { intros c Hc Ec. destruct p as [|d p]; cbn in Ec; [injection Ec as E1 E2; tauto|]. injection Ec as -> Ec. exact (IH p v Ec). }
  inversion Ht; subst.
  - apply (C c); [unfold isWs in *; lia|assumption].
  - apply (C c); [lia|assumption].
  - apply (C c); [lia|assumption].
  - apply (C c); [lia|assumption].
  - match goal with H : l ++ s1 = _, H2 : Forall _ l |- _ => destruct (lit_eq l s1 p v H2 H) as (p' & E' & _) end. exact (IH p' v E').
  - destruct p as [|d p]; cbn in *; [match goal with H : o :: _ = _ |- _ => injection H as H _ end; lia|].
    match goal with H : o :: s0 = _ |- _ => injection H as -> -> end.
    match goal with H : skipBody _ = Ok _ |- _ => destruct (skipBody_eq _ p v s1 (le_n _) H) as [(q' & E' & _)|E'] end; [exact (IH q' v E')|eauto].
Qed.

(** The text of a string: no step of the reader outside a string passes over a backslash. *)
Lemma chars_head u s c b : jcharsAre u s (c :: b) -> c <> 34 /\ (c <> 92 -> exists s', jcharsAre u s' b).
Proof.
  intros H. inversion H as [|c0 t s0 r Hc Hr E1 E2]; subst. inversion Hc; subst; cbn in E2; injection E2 as <- <-; (split; [lia|intros; try lia]). eauto.
Qed.
Lemma chars_lit u l x : Forall (fun c => c <> 61 /\ c <> 34 /\ c <> 92) l -> forall s b, jcharsAre u s b -> b ++ [34] = l ++ x ->
  exists s' b', jcharsAre u s' b' /\ x = b' ++ [34].
Proof.
  induction 1 as [|c l (_ & Hc & Hc2) Hl IH]; intros s b Hb E; [cbn in E; subst; eauto|]. destruct b as [|d b]; cbn in E; injection E as E1 E2; [congruence|]. subst d.
  destruct (chars_head _ _ _ _ Hb) as [_ K]. destruct (K Hc2) as [s' Hs']. exact (IH _ _ Hs' E2).
Qed.
Lemma chars_ws u s b : jcharsAre u s b -> hd 0 (jws (b ++ [34])) = 34 -> jws (b ++ [34]) = [34].
Proof.
  revert s. induction b as [|c b IH]; intros s H; [reflexivity|]. cbn [app jws]. destruct (chars_head _ _ _ _ H) as [H1 H2]. destruct (isWs c) eqn:E.
  - assert (c <> 92) by (unfold isWs in E; lia). destruct (H2 ltac:(assumption)) as [s' Hs']. exact (IH _ Hs').
  - cbn. congruence.
Qed.
Lemma chars_path u f x f' r : toks f x f' r -> forall s b, jcharsAre u s b -> x = b ++ [34] -> r = [] \/ exists s' b', jcharsAre u s' b' /\ r = b' ++ [34].
Proof.
  induction 1 as [f x|f x f1 x1 f2 x2 Ht Hs IH]; intros s b Hb E; [right; eauto|].
  assert (C : forall c, c <> 34 -> c <> 92 -> c :: x1 = b ++ [34] -> x2 = [] \/ exists s' b', jcharsAre u s' b' /\ x2 = b' ++ [34]).
  { intros c H1 H2 Ec. destruct b as [|d b]; cbn in Ec; injection Ec as Ec1 Ec2; [congruence|]. subst d. destruct (chars_head _ _ _ _ Hb) as [_ K]. destruct (K H2) as [s' Hs'].
    exact (IH _ _ Hs' Ec2). }
  inversion Ht; subst.
  - apply (C c); [unfold isWs in *; lia|unfold isWs in *; lia|assumption].
  - apply (C c); [lia|lia|assumption].
  - apply (C c); [lia|lia|assumption].
  - apply (C c); [lia|lia|assumption].
  - match goal with H : l ++ x1 = _, H2 : Forall _ l |- _ => destruct (chars_lit u l x1 H2 s b Hb (eq_sym H)) as (s' & b' & K1 & K2) end. exact (IH _ _ K1 K2).
  - destruct b as [|d b]; cbn in *; match goal with H : o :: _ = _ |- _ => injection H as ? ? end; subst; [discriminate|].
    match goal with H : d = 34 \/ _ |- _ => destruct H as [-> |[-> Hw]] end; [destruct (chars_head _ _ _ _ Hb); lia|].
    destruct (chars_head _ _ _ _ Hb) as [_ K]. destruct (K ltac:(lia)) as [s' Hs']. match goal with H : skipBody _ = Ok _ |- _ => rewrite (skipBody_ws _ Hw), (chars_ws _ _ _ Hs' Hw) in H; injection H as <- end.
    cbn in Hs. inversion Hs as [|? ? ? ? ? ? Ht' _]; subst; [now left|]. exfalso. inversion Ht'; subst.
Qed.

Theorem noOverread u v s : jgram u v s -> iniVal v -> forall p, jsonValidate (p ++ 61 :: s) <> UB.
Proof.
  intros Hg Hv p E. pose proof (validate_any (p ++ 61 :: s)) as K. rewrite E in K. cbn in K. destruct K as (t & Ht & Eb).
  assert (Hne : s <> []) by (inversion Hg; subst; try discriminate; match goal with H : digitsIs _ s _ |- _ => now destruct (digitsIs_all _ _ H) end).
  assert (D : skipBody s <> UB /\ forall r, skipBody s = Ok r -> toks true r false (34 :: t) -> False).
  { assert (P : ~ In 34 s -> ~ In 92 s -> skipBody s <> UB /\ forall r, skipBody s = Ok r -> toks true r false (34 :: t) -> False).
    { intros H1 H2. split; [intros H; pose proof (skipBody_err _ s (le_n _)) as K; rewrite H in K; tauto|]. intros r Er. exfalso. apply H1. exact (skipBody_quote _ _ _ (le_n _) Er). }
    assert (Dg : forall ds v, digitsIs 10 ds v -> ~ In 34 ds /\ ~ In 92 ds).
    { intros ds w Hd. apply digitsIs_all in Hd as [_ Hd]. rewrite Forall_forall in Hd. split; intros Hi; apply Hd in Hi; discriminate. }
    inversion Hg; subst; try (apply P; cbn; lia).
    - apply P; apply (Dg _ _ H).
    - apply P; (intros [H2|H2]; [discriminate|]); revert H2; apply (Dg _ _ H).
    - cbn [skipBody]. change (34 =? 34) with true. cbn. split; [discriminate|]. intros r Er Hr. injection Er as <-.
      destruct (chars_path _ _ _ _ _ Hr _ _ H eq_refl) as [K|(s' & b' & K1 & K2)]; [discriminate|]. destruct b' as [|c b']; cbn in K2.
      + injection K2 as ->. discriminate.
      + injection K2 as <- _. apply chars_head in K1. tauto.
    - destruct Hv.
    - destruct Hv.
    - assert (W : forall c, isWs c = false -> ~ In c w) by (intros c Hc Hi; eapply wsp_no in Hi; [congruence|assumption]).
      apply P; (intros [H2|H2]; [discriminate|]); (apply in_app_or in H2 as [H2|[H2|[]]]; [|discriminate]); revert H2; apply W; reflexivity.
    - assert (K : exists w k r, s0 = w ++ 34 :: k ++ r /\ wsp w /\ exists c k', k = c :: k' /\ 97 <= c <= 122).
      { match goal with H : jmembers _ _ _ |- _ => destruct H end; cbn in Hv; inversion Hv as [|? ? (c & k' & Ep & Hc) _]; subst; cbn [fst] in Ep; subst k.
        - exists w, (c :: k'). eexists. split; [|split; [assumption|eauto]]. f_equal. cbn [app]. f_equal. f_equal. rewrite <- app_assoc. reflexivity.
        - exists w, (c :: k'). eexists. split; [|split; [assumption|eauto]]. f_equal. cbn [app]. f_equal. f_equal. rewrite <- app_assoc. reflexivity. }
      destruct K as (w & k & r & -> & Hw & c & k' & -> & Hc). cbn [app].
      assert (W : forall c, isWs c = false -> ~ In c w) by (intros d Hd Hi; eapply wsp_no in Hi; [congruence|assumption]).
      assert (Er : skipBody (123 :: (w ++ 34 :: c :: k' ++ r) ++ [125]) = Ok (c :: (k' ++ r) ++ [125])).
      { replace (123 :: (w ++ 34 :: c :: k' ++ r) ++ [125]) with ((123 :: w) ++ 34 :: c :: (k' ++ r) ++ [125]) by (cbn [app]; now rewrite <- (app_assoc w)).
        apply skipBody_plain; (intros [H2|H2]; [discriminate|]); revert H2; apply W; reflexivity. }
      rewrite Er. split; [discriminate|]. intros q Eq Hq. injection Eq as <-. inversion Hq as [|? ? ? ? ? ? Ht1 _]; subst. inversion Ht1; subst; [unfold isWs in *; lia|lia|lia]. }
  destruct D as [D1 D2]. destruct (toks_eq2 _ _ _ _ Ht p s eq_refl) as [(q & Eq)|(r & Er & Hr)]; [|exact (D2 r Er Hr)].
  destruct q as [|o q]; [discriminate|]. injection Eq as <- ->. exact (D1 (skipBody_eq_ub _ q s (le_n _) Eb Hne)).
Qed.
Lemma bigRun_eq p s : bigRun (p ++ 61 :: s) -> bigRun p \/ bigRun s.
Proof.
  revert p. assert (G : forall (d x p : str), Forall (fun c => isDigit c = true) d -> d ++ x = p ++ 61 :: s -> exists y, p = d ++ y).
  { induction d as [|c d IH]; intros x p Hd E; [now exists p|]. inversion Hd; subst. destruct p as [|c' p]; cbn in E; injection E as E1 E2; [subst c; discriminate|].
    subst c'. destruct (IH x p ltac:(assumption) E2) as [y ->]. now exists y. }
  intros p (a & d & r & E & Hd & L). revert p E. induction a as [|c a IH]; intros p E; cbn in E.
  - destruct (G d r p Hd (eq_sym E)) as [y ->]. left. exists [], d, y. auto.
  - destruct p as [|c' p]; cbn in E; injection E as E1 E2.
    + right. exists a, d, r. auto.
    + destruct (IH p E2) as [(a' & d' & r' & -> & K)|K]; [|now right]. left. exists (c' :: a'), d', r'. auto.
Qed.
