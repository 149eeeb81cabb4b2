From Verif Require Import Base Str JobModel JobSpec JobProof.
From Coq Require Import Sorting.Sorted Sorting.Permutation.
Open Scope Z_scope.

(** * Weak orders *)
Definition wo {A} (cmp : A -> A -> comparison) : Prop :=
  (forall a b, cmp b a = CompOpp (cmp a b)) /\ (forall a b c, cmp a b <> Gt -> cmp b c <> Gt -> cmp a c <> Gt).
Section Wo.
  Context {A : Type}.
  Implicit Types cmp : A -> A -> comparison.
  Lemma wo_refl cmp : wo cmp -> forall a, cmp a a = Eq.
  Proof. intros [H _] a. specialize (H a a). destruct (cmp a a); cbn in H; congruence. Qed.
  Lemma wo_eq cmp : wo cmp -> forall a b c, cmp a b = Eq -> cmp b c = cmp a c.
  Proof.
    intros [H1 H2] a b c E. pose proof (H1 a b) as Eb. rewrite E in Eb. cbn in Eb.
    pose proof (H2 a b c) as K1. pose proof (H2 b a c) as K2. pose proof (H2 c b a) as K3. pose proof (H2 c a b) as K4.
    pose proof (H1 a c) as C1. pose proof (H1 b c) as C2. rewrite E in *. rewrite Eb in *. rewrite C1, C2 in *.
    destruct (cmp a c), (cmp b c); cbn in *; try reflexivity; exfalso;
      try (apply K1; congruence); try (apply K2; congruence); try (apply K3; congruence); try (apply K4; congruence).
  Qed.
  Lemma wo_eq_r cmp : wo cmp -> forall a b c, cmp b c = Eq -> cmp a b = cmp a c.
  Proof.
    intros W a b c E. pose proof W as [H1 _]. pose proof (wo_eq cmp W b c a E) as K. rewrite (H1 a c), (H1 a b) in K. destruct (cmp a b), (cmp a c); cbn in K; congruence.
  Qed.
  Lemma wo_lt cmp : wo cmp -> forall a b c, cmp a b = Lt -> cmp b c = Lt -> cmp a c = Lt.
  Proof.
    intros W a b c E1 E2. pose proof W as [H1 H2]. destruct (cmp a c) eqn:E; [|reflexivity|].
    - exfalso. pose proof (wo_eq_r cmp W b a c E) as K. rewrite (H1 a b), E1 in K. cbn in K. congruence.
    - exfalso. apply (H2 a b c); congruence.
  Qed.
  Definition lexIf cmp (flag : A -> bool) cT cF : A -> A -> comparison :=
    fun a b => match cmp a b with Eq => if flag a then cT a b else cF a b | x => x end.
  Lemma wo_lexIf cmp flag cT cF : wo cmp -> (forall a b, cmp a b = Eq -> flag a = flag b) -> wo cT -> wo cF -> wo (lexIf cmp flag cT cF).
  Proof.
    intros W Hf [T1 T2] [F1 F2]. pose proof W as [W1 W2]. split.
    - intros a b. unfold lexIf. rewrite (W1 a b). destruct (cmp a b) eqn:E; cbn; try reflexivity. rewrite <- (Hf a b E). destruct (flag a); [apply T1|apply F1].
    - intros a b c. unfold lexIf. destruct (cmp a b) eqn:E1; [|intros _|congruence].
      + rewrite <- (wo_eq cmp W a b c E1). destruct (cmp b c) eqn:E2; try congruence. rewrite <- (Hf a b E1). destruct (flag a); [apply T2|apply F2].
      + destruct (cmp b c) eqn:E2; [|intros _|congruence].
        * rewrite <- (wo_eq_r cmp W a b c E2), E1. congruence.
        * rewrite (wo_lt cmp W a b c E1 E2). congruence.
  Qed.
  Definition lex c1 c2 := lexIf c1 (fun _ => true) c2 c2.
  Lemma wo_lex c1 c2 : wo c1 -> wo c2 -> wo (lex c1 c2).
  Proof. intros. apply wo_lexIf; auto. Qed.
  Lemma wo_z (key : A -> Z) : wo (fun a b => key a ?= key b).
  Proof.
    split; [intros; apply Z.compare_antisym|]. intros a b c H1 H2 E. apply Z.compare_gt_iff in E. apply -> Z.compare_le_iff in H1. apply -> Z.compare_le_iff in H2. lia.
  Qed.
  Lemma wo_rev cmp : wo cmp -> wo (fun a b => cmp b a).
  Proof. intros [H1 H2]. split; [intros; apply H1|]. intros a b c E1 E2. exact (H2 c b a E2 E1). Qed.
  Lemma wo_str (key : A -> str) : wo (fun a b => strCmp (key a) (key b)).
  Proof. split; [intros; apply strCmp_antisym|]. intros a b c. apply sle_trans. Qed.
  Lemma wo_ref (key : A -> option str) : wo (fun a b => referenceCmp (key a) (key b)).
  Proof.
    split.
    - intros a b. destruct (key a), (key b); cbn; try reflexivity. apply strCmp_antisym.
    - intros a b c. destruct (key a), (key b), (key c); cbn; try congruence. apply sle_trans.
  Qed.
End Wo.

Lemma if_cmp {A} (x y : Z) (l g e : A) : (if x <? y then l else if y <? x then g else e) = match x ?= y with Lt => l | Gt => g | Eq => e end.
Proof. destruct (Z.compare_spec x y); destruct (Z.ltb_spec x y); try lia; destruct (Z.ltb_spec y x); try lia; reflexivity. Qed.

(** * The comparator of a backup *)
Definition bflag (c : jobConf) (f : mfile) : bool := jcBundle c && (mfSize f <=? jcBundleLimit c).
Definition nameCmp (a b : mfile) := strCmp (mfName a) (mfName b).
Definition timeName := lex (fun a b => mfTimestamp a ?= mfTimestamp b) nameCmp.
Definition hasRef (f : mfile) : bool := match mfReference f with Some _ => true | None => false end.
Definition backupLex (c : jobConf) : mfile -> mfile -> comparison :=
  lexIf (fun a b => (if bflag c a then 1 else 0) ?= (if bflag c b then 1 else 0)) (bflag c)
    (lexIf (fun a b => referenceCmp (mfReference a) (mfReference b)) hasRef
       (lex (fun a b => mfBundleId a ?= mfBundleId b) (lex (fun a b => mfBundleOffset a ?= mfBundleOffset b) timeName)) timeName)
    (lex (fun a b => mfSize b ?= mfSize a) nameCmp).
Lemma backupCmp_lex c a b : backupCmp c a b = backupLex c a b.
Proof.
  unfold backupCmp, backupLex, lexIf. fold (bflag c a). fold (bflag c b). destruct (bflag c a), (bflag c b); cbn [Bool.eqb negb]; try reflexivity.
  - change (1 ?= 1) with Eq. cbv iota. unfold timeName, lex, lexIf, hasRef, nameCmp. destruct (mfReference a), (mfReference b); cbn [referenceCmp]; try reflexivity; [|rewrite if_cmp; destruct (mfTimestamp a ?= mfTimestamp b); reflexivity].
    destruct (strCmp s s0); try reflexivity. rewrite !if_cmp. destruct (mfBundleId a ?= mfBundleId b); try reflexivity.
  - change (0 ?= 0) with Eq. cbv iota. unfold lex, lexIf, nameCmp. rewrite if_cmp, (Z.compare_antisym (mfSize a) (mfSize b)). destruct (mfSize a ?= mfSize b); reflexivity.
Qed.
Lemma backup_wo c : wo (backupLex c).
Proof.
  assert (T : wo timeName) by (apply wo_lex; [apply (wo_z mfTimestamp)|apply (wo_str mfName)]).
  apply wo_lexIf; [apply (wo_z (fun a => if bflag c a then 1 else 0))| | |].
  - intros a b. destruct (bflag c a), (bflag c b); cbn; congruence.
  - apply wo_lexIf; [apply (wo_ref mfReference)| | |exact T].
    + intros a b. unfold hasRef. destruct (mfReference a), (mfReference b); cbn; congruence.
    + apply wo_lex; [apply (wo_z mfBundleId)|]. apply wo_lex; [apply (wo_z mfBundleOffset)|exact T].
  - apply wo_lex; [apply (wo_rev (fun a b => mfSize a ?= mfSize b)); apply (wo_z mfSize)|apply (wo_str mfName)].
Qed.
Lemma lex_eq {A} (c1 c2 : A -> A -> comparison) a b : lex c1 c2 a b = Eq -> c2 a b = Eq.
Proof. unfold lex, lexIf. destruct (c1 a b); congruence. Qed.
Lemma backup_eq c a b : backupLex c a b = Eq -> mfName a = mfName b.
Proof.
  assert (N : nameCmp a b = Eq -> mfName a = mfName b) by apply strCmp_eq. unfold backupLex, lexIf. destruct ((if bflag c a then 1 else 0) ?= _); try discriminate. destruct (bflag c a).
  - destruct (referenceCmp _ _); try discriminate. destruct (hasRef a); intros E; apply N; unfold timeName in E; repeat apply lex_eq in E; exact E.
  - intros E. apply N. now apply lex_eq in E.
Qed.

(** * The comparator of a restore *)
Definition zflag (f : mfile) : Z := if mfSize f =? 0 then 1 else 0.
Definition restoreLex : mfile -> mfile -> comparison :=
  lex (fun a b => zflag a ?= zflag b)
    (lexIf (fun a b => mfBundleId a ?= mfBundleId b) (fun a => mfBundleId a =? 0)
       (lex (fun a b => mfSize b ?= mfSize a) (fun a b => nameCmp b a))
       (lex (fun a b => referenceCmp (mfReference a) (mfReference b)) (fun a b => mfBundleOffset a ?= mfBundleOffset b))).
Lemma restore_wo : wo restoreLex.
Proof.
  apply wo_lex; [apply (wo_z zflag)|]. apply wo_lexIf; [apply (wo_z mfBundleId)| | |].
  - intros a b E. apply Z.compare_eq in E. now rewrite E.
  - apply wo_lex; [apply (wo_rev (fun a b => mfSize a ?= mfSize b)); apply (wo_z mfSize)|apply (wo_rev nameCmp); apply (wo_str mfName)].
  - apply wo_lex; [apply (wo_ref mfReference)|apply (wo_z mfBundleOffset)].
Qed.
(* equal only if neither position nor name tells them apart *)
Definition sameSpot (a b : mfile) : Prop := if mfBundleId a =? 0 then mfName a = mfName b
  else mfBundleId a = mfBundleId b /\ mfReference a = mfReference b /\ mfBundleOffset a = mfBundleOffset b.
Lemma ref_eq a b : referenceCmp a b = Eq -> a = b.
Proof. destruct a, b; cbn; try discriminate; [|reflexivity]. intros E. apply strCmp_eq in E. now subst. Qed.
Lemma restore_eq a b : restoreLex a b = Eq -> sameSpot a b.
Proof.
  unfold restoreLex, lex, lexIf, sameSpot, nameCmp. destruct (zflag a ?= zflag b); try discriminate. destruct (mfBundleId a ?= mfBundleId b) eqn:Eb; try discriminate. apply Z.compare_eq in Eb.
  destruct (mfBundleId a =? 0).
  - destruct (mfSize b ?= mfSize a); try discriminate. intros E. apply strCmp_eq in E. congruence.
  - destruct (referenceCmp _ _) eqn:Er; try discriminate. intros E. apply Z.compare_eq in E. apply ref_eq in Er. auto.
Qed.
Lemma restoreCmp_lex a b : restoreCmp a b = restoreLex a b \/ (restoreCmp a b = Gt /\ restoreLex a b = Eq).
Proof.
  unfold restoreCmp, restoreLex, lex, lexIf, zflag, nameCmp.
  destruct (mfSize a =? 0), (mfSize b =? 0); cbn [andb negb]; try (left; reflexivity).
  all: match goal with |- context [?x ?= ?x] => change (x ?= x) with Eq end; cbv iota; rewrite !if_cmp; destruct (mfBundleId a ?= mfBundleId b); try (left; reflexivity);
    destruct (mfBundleId a =? 0);
    [rewrite (Z.compare_antisym (mfSize a) (mfSize b)); destruct (mfSize a ?= mfSize b); left; reflexivity|];
    destruct (referenceCmp _ _); try (left; reflexivity);
    destruct (Z.compare_spec (mfBundleOffset a) (mfBundleOffset b)); destruct (Z.ltb_spec (mfBundleOffset a) (mfBundleOffset b)); try lia; auto.
Qed.

(** * Sorting *)
Lemma insertCmp_perm {A} cmp (x : A) l : Permutation (insertCmp cmp x l) (x :: l).
Proof. induction l as [|y l IH]; cbn; [reflexivity|]. destruct (cmp x y); try reflexivity. rewrite IH. apply perm_swap. Qed.
Lemma sortCmp_perm {A} cmp (l : list A) : Permutation (sortCmp cmp l) l.
Proof. induction l as [|x l IH]; cbn; [reflexivity|]. rewrite insertCmp_perm. now constructor. Qed.
Lemma sortCmp_sorted {A} cmp (R : A -> A -> Prop) l : (forall x y, In x l -> In y l -> x <> y \/ True -> cmp x y <> Gt -> R x y) -> (forall x y, In x l -> In y l -> cmp x y = Gt -> R y x) ->
  (forall x y z, R x y -> R y z -> R x z) -> StronglySorted R (sortCmp cmp l).
Proof.
  intros H1 H2 Ht. induction l as [|x l IH]; cbn; [constructor|]. specialize (IH ltac:(intros; apply H1; auto; now right) ltac:(intros; apply H2; auto; now right)).
  assert (Hin : forall y, In y (sortCmp cmp l) -> In y l) by (intros y; apply Permutation_in, sortCmp_perm). induction IH as [|y r Hs IHs Hf]; cbn; [repeat constructor|].
  assert (Hy : In y (x :: l)) by (right; apply Hin; now left).
  destruct (cmp x y) eqn:E.
  1,2: constructor; [constructor; assumption|]; assert (R x y) by (apply H1; [now left|exact Hy|auto|congruence]); constructor; [assumption|]; eapply Forall_impl; [|exact Hf]; eauto.
  constructor; [apply IHs; intros z Hz; apply Hin; now right|]. assert (R y x) by (apply H2; [now left|exact Hy|exact E]).
  eapply Permutation_Forall; [symmetry; apply insertCmp_perm|]. constructor; assumption.
Qed.
Definition R_ (cmp : mfile -> mfile -> comparison) (a b : mfile) : Prop := cmp a b <> Gt.
Lemma R_trans cmp : wo cmp -> forall a b c, R_ cmp a b -> R_ cmp b c -> R_ cmp a c. Proof. intros [_ H]. exact H. Qed.
Lemma backup_sorted c l : StronglySorted (R_ (backupLex c)) (sortCmp (backupCmp c) l).
Proof.
  apply sortCmp_sorted; [| |apply R_trans, backup_wo]; intros x y _ _; [intros _|]; unfold R_; rewrite backupCmp_lex; [auto|]. intros E. pose proof (backup_wo c) as [H _]. rewrite (H x y), E. discriminate.
Qed.
Lemma restore_sorted l : StronglySorted (R_ restoreLex) (sortCmp restoreCmp l).
Proof.
  pose proof restore_wo as [H _]. apply sortCmp_sorted; [| |apply R_trans, restore_wo]; intros x y _ _; [intros _|]; unfold R_; destruct (restoreCmp_lex x y) as [E|[E1 E2]]; try congruence.
  - intros E2. rewrite (H x y). rewrite <- E, E2. discriminate.
  - intros _. rewrite (H x y), E2. discriminate.
Qed.
(** Any sort gives the same list when the comparison is a total order. *)
Lemma order_unique {A} (P : A -> Prop) cmp : totalOrder P cmp -> forall l1 l2 : list A, Forall P l1 -> Permutation l1 l2 -> NoDup l1 ->
  StronglySorted (fun a b => cmp a b = Lt) l1 -> StronglySorted (fun a b => cmp a b = Lt) l2 -> l1 = l2.
Proof.
  intros (H1 & H2 & H3). induction l1 as [|a l1 IH]; intros l2 HP Hp Hn S1 S2; [apply Permutation_nil in Hp; now subst|].
  destruct l2 as [|b l2]; [apply Permutation_sym, Permutation_nil in Hp; discriminate|].
  assert (E : a = b).
  { inversion S1 as [|? ? S1' F1]; inversion S2 as [|? ? S2' F2]; subst. assert (Ha : In a (b :: l2)) by (eapply Permutation_in; [exact Hp|now left]). assert (Hb : In b (a :: l1)) by (eapply Permutation_in; [symmetry; exact Hp|now left]).
    destruct Ha as [Ha|Ha]; [auto|]. destruct Hb as [Hb|Hb]; [auto|]. rewrite Forall_forall in F1, F2, HP. specialize (F1 b Hb). specialize (F2 a Ha).
    assert (N : a <> b). { intros ->. inversion Hn. contradiction. } exfalso. rewrite (H2 a b) in F2; [rewrite F1 in F2; discriminate|apply HP; now left|apply HP; now right|exact N]. }
  subst b. f_equal. inversion HP; inversion Hn; inversion S1; inversion S2; subst. apply IH; auto. eapply Permutation_cons_inv; exact Hp.
Qed.
Lemma total_sorted {A} (P : A -> Prop) cmp : totalOrder P cmp -> forall l : list A, Forall P l -> NoDup l -> StronglySorted (fun a b => cmp a b = Lt) (sortCmp cmp l).
Proof.
  intros (H1 & H2 & H3) l HP Hn. induction l as [|x l IH]; cbn; [constructor|]. inversion HP as [|? ? Hx HP']; inversion Hn as [|? ? Hx' Hn']; subst. specialize (IH HP' Hn').
  assert (Hin : forall y, In y (sortCmp cmp l) -> P y /\ y <> x).
  { intros y Hy. apply (Permutation_in _ (sortCmp_perm cmp l)) in Hy. rewrite Forall_forall in HP'. split; [auto|]. intros ->. contradiction. }
  assert (Hlt : forall y, In y (sortCmp cmp l) -> cmp x y <> Gt -> cmp x y = Lt).
  { intros y Hy E. destruct (Hin y Hy) as [Py Ny]. destruct (cmp x y) eqn:Ec; [exfalso; apply Ny; symmetry; now apply H1|reflexivity|congruence]. }
  induction IH as [|y r Hs IHs Hf]; cbn; [repeat constructor|].
  assert (Hin' : forall z, In z r -> P z /\ z <> x) by (intros z Hz; apply Hin; now right).
  destruct (Hin y ltac:(now left)) as [Py Ny]. destruct (cmp x y) eqn:E.
  - exfalso. apply Ny. symmetry. now apply H1.
  - constructor; [constructor; assumption|]. constructor; [exact E|]. rewrite Forall_forall in Hf |- *. intros z Hz. destruct (Hin' z Hz). eapply H3; [exact Hx|exact Py|assumption|exact E|now apply Hf].
  - constructor; [apply IHs; [exact Hin'|intros z Hz; apply Hlt; now right]|]. eapply Permutation_Forall; [symmetry; apply insertCmp_perm|]. constructor; [|exact Hf].
    rewrite (H2 x y); auto. now rewrite E.
Qed.
