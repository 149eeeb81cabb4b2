From Verif Require Import Base Str NumSpec JsonModel JsonSpec JsonProof JsonProof4 JsonProof5 JsonProof7 JsonProof9 IniModel InfoSpec.
Open Scope Z_scope.

Lemma lineValue_ini v : lineValue v <-> iniVal v. Proof. destruct v; reflexivity. Qed.
Lemma manyDigits_big s : bigRun s <-> manyDigits s.
Proof.
  split; intros (p & d & r & E & Hd & L); exists p, d, r; (split; [exact E|split; [|exact L]]); (eapply Forall_impl; [|exact Hd]); unfold isDigit; cbn; intros; lia.
Qed.
Lemma validate_text v s : jgram false v s -> jsonValidate s = Ok tt.
Proof. intros Hg. pose proof (validate_ok v s [] [] Hg ltac:(constructor) ltac:(constructor)) as K. cbn [app] in K. now rewrite app_nil_r in K. Qed.

(** * Splitting a line *)
Definition splitOk (k s : str) (r : res (str * str)) : Prop := r = Ok (k, s) \/ (r = Err EFormat /\ In 61 k /\ (manyDigits k \/ manyDigits s)).
Lemma manyDigits_app p k : manyDigits k -> manyDigits (p ++ k).
Proof. intros (a & d & r & -> & H). exists (p ++ a), d, r. rewrite <- app_assoc. auto. Qed.
Lemma split_any u v s : jgram u v s -> iniVal v -> jsonValidate s = Ok tt -> forall k pre,
  iniSplitStrict pre (k ++ 61 :: s) = Ok (pre ++ k, s) \/ (iniSplitStrict pre (k ++ 61 :: s) = Err EFormat /\ In 61 k /\ (manyDigits k \/ manyDigits s)).
Proof.
  intros Hg Hv Hs. induction k as [|c k IH]; intros pre; cbn [app iniSplitStrict].
  - change (61 =? 61) with true. cbv iota. rewrite Hs, app_nil_r. now left.
  - assert (N : iniSplitStrict (pre ++ [c]) (k ++ 61 :: s) = Ok (pre ++ c :: k, s) \/ (iniSplitStrict (pre ++ [c]) (k ++ 61 :: s) = Err EFormat /\ In 61 (c :: k) /\ (manyDigits (c :: k) \/ manyDigits s))).
    { destruct (IH (pre ++ [c])) as [K|(K1 & K2 & K3)]; [left; rewrite K, <- app_assoc; reflexivity|]. right. split; [exact K1|]. split; [now right|].
      destruct K3 as [K3|K3]; [left; apply (manyDigits_app [c] k K3)|now right]. }
    destruct (Z.eqb_spec c 61) as [-> |]; [|exact N].
    pose proof (validate_any (k ++ 61 :: s)) as V. pose proof (noSplit u v s Hg Hv k) as V1. pose proof (noOverread u v s Hg Hv k) as V2.
    destruct (jsonValidate (k ++ 61 :: s)) as [[]|e|] eqn:E; [congruence| |congruence]. cbn in V. destruct V as [-> |[-> B]]; [exact N|].
    right. split; [reflexivity|]. split; [now left|]. destruct (bigRun_eq _ _ B) as [K|K]; apply manyDigits_big in K; [left; apply (manyDigits_app [61] k K)|now right].
Qed.
Lemma split_sound s : forall pre k v, iniSplitStrict pre s = Ok (k, v) -> exists k', k = pre ++ k' /\ s = k' ++ 61 :: v /\ jsonValidate v = Ok tt.
Proof.
  induction s as [|c s IH]; intros pre k v; cbn [iniSplitStrict]; [discriminate|].
  assert (N : iniSplitStrict (pre ++ [c]) s = Ok (k, v) -> exists k', k = pre ++ k' /\ c :: s = k' ++ 61 :: v /\ jsonValidate v = Ok tt).
  { intros H. destruct (IH _ _ _ H) as (k' & -> & -> & Hv). exists (c :: k'). rewrite <- app_assoc. auto. }
  destruct (Z.eqb_spec c 61) as [-> |]; [|exact N]. destruct (jsonValidate s) as [[]|e|] eqn:E; [|destruct e; try discriminate; exact N|discriminate].
  intros H. injection H as <- <-. exists []. rewrite app_nil_r. auto.
Qed.

(** The last character of a value *)
Lemma last_snoc {A} (s : list A) c d : last (s ++ [c]) d = c. Proof. apply last_last. Qed.
Lemma text_last u v s : jgram u v s -> iniVal v -> s <> [] /\ last s 0 <> 93.
Proof.
  assert (Dg : forall ds, Forall (fun c => isDigit c = true) ds -> last ds 0 <> 93).
  { induction 1 as [|c [|c' ds] Hc Hd IH]; cbn; [lia|unfold isDigit in Hc; lia|exact IH]. }
  intros Hg Hv. destruct Hg; try (split; [discriminate|cbn; lia]).
  - destruct (digitsIs_all _ _ H) as [H2 H3]. split; [exact H2|now apply Dg].
  - destruct (digitsIs_all _ _ H) as [H2 H3]. split; [discriminate|]. change (45 :: ds) with ([45] ++ ds). destruct ds as [|c ds]; [congruence|]. rewrite last_app_cons. now apply Dg.
  - split; [discriminate|]. change (34 :: t ++ [34]) with ((34 :: t) ++ [34]). rewrite last_snoc. lia.
  - destruct Hv.
  - destruct Hv.
  - split; [discriminate|]. change (123 :: w ++ [125]) with ((123 :: w) ++ [125]). rewrite last_snoc. lia.
  - split; [discriminate|]. change (123 :: s ++ [125]) with ((123 :: s) ++ [125]). rewrite last_snoc. lia.
Qed.

(** * Lines *)
Lemma iniLine_kv sec k s : sec <> [] -> k <> [] -> valueText s ->
  iniLine true sec (k ++ 61 :: s) = Ok (sec, Some (k, s)) \/ (iniLine true sec (k ++ 61 :: s) = Err EFormat /\ In 61 k /\ (manyDigits k \/ manyDigits s)).
Proof.
  intros Hsec Hk (v & Hg & Hv & _). apply lineValue_ini in Hv. unfold iniLine. destruct k as [|c k]; [congruence|]. cbn [app negb andb orb].
  assert (El : last (c :: k ++ 61 :: s) 0 =? 93 = false).
  { change (c :: k ++ 61 :: s) with ((c :: k) ++ 61 :: s). rewrite last_app_cons. destruct (text_last _ _ _ Hg Hv) as [H1 H2]. destruct s as [|d s]; [congruence|].
    change (61 :: d :: s) with ([61] ++ d :: s). rewrite last_app_cons. destruct (Z.eqb_spec (last (d :: s) 0) 93); [contradiction|reflexivity]. }
  rewrite El, andb_false_r. destruct sec as [|x sec]; [congruence|].
  destruct (split_any false v s Hg Hv (validate_text _ _ Hg) (c :: k) []) as [E|(E & K)]; cbn [app] in E; rewrite E; cbn [bind]; [now left|right; auto].
Qed.
Lemma iniLine_section x sec : sec <> [] -> iniLine true x (91 :: sec ++ [93]) = Ok (sec, None).
Proof.
  intros H. unfold iniLine. cbn [negb andb orb]. change (91 :: sec ++ [93]) with ((91 :: sec) ++ [93]) at 1. rewrite last_snoc. change (91 =? 91) with true. change (93 =? 93) with true. cbn [andb negb].
  rewrite removelast_last. destruct sec; [congruence|reflexivity].
Qed.
Lemma iniLine_sound sec line sec' k v : iniLine true sec line = Ok (sec', Some (k, v)) -> sec' = sec /\ sec <> [] /\ k <> [] /\ line = k ++ 61 :: v /\ jsonValidate v = Ok tt.
Proof.
  unfold iniLine. destruct line as [|c r]; [discriminate|]. cbn [negb andb orb]. destruct ((c =? 91) && _).
  - destruct (removelast r); discriminate.
  - destruct sec as [|x sec]; [discriminate|]. destruct (iniSplitStrict [] (c :: r)) as [[k' v']| |] eqn:E; try discriminate. cbn [bind]. destruct k' as [|a k']; [discriminate|].
    intros H. injection H as <- <- <-. destruct (split_sound _ _ _ _ E) as (k2 & E1 & E2 & E3). cbn in E1. subst k2. split; [reflexivity|]. split; [discriminate|]. split; [discriminate|auto].
Qed.
Lemma iniLines_cons l t : ~ In 10 l -> iniLines (l ++ 10 :: t) = l :: iniLines t.
Proof.
  induction l as [|c l IH]; intros H; [reflexivity|]. cbn [app iniLines]. destruct (Z.eqb_spec c 10) as [-> |]; [exfalso; apply H; now left|].
  rewrite IH; [reflexivity|]. intros K. apply H. now right.
Qed.
Definition unlines (ls : list str) : str := flat_map (fun l => l ++ [10]) ls.
Lemma unlines_app a b : unlines (a ++ b) = unlines a ++ unlines b. Proof. apply flat_map_app. Qed.
Lemma iniLines_unlines ls : Forall (fun l => ~ In 10 l) ls -> iniLines (unlines ls) = ls.
Proof.
  induction 1 as [|l ls Hl Hs IH]; [reflexivity|]. cbn [unlines flat_map]. rewrite <- app_assoc. cbn [app]. rewrite iniLines_cons by exact Hl. f_equal. exact IH.
Qed.
