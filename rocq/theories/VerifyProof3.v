(** The result of a job for WAL. *)
From Coq Require Import String Sorting.Sorted Sorting.Permutation.
From Verif Require Import Base Str ConvertModel NumModel LsnModel LsnProof RegNameModel EncodeModel LinkCheckModel LinkCheckProof2 BuildProof4 VerifyModel VerifySpec VerifyProof VerifyProof2.
Open Scope Z_scope.
Open Scope list_scope.

(** * Into which range a bad file goes *)
Lemma ssorted_app_l a b : ssorted (a ++ b) -> ssorted a /\ ssorted b /\ forall x y, In x a -> In y b -> slt x y.
Proof.
  intros H. apply StronglySorted_app_inv in H. exact H.
Qed.
Lemma addBad_forall (P P' : list str -> vrange -> Prop) x seg : forall rs ranges, Forall2 P rs ranges -> (forall r y, P r y -> exists q, r = q ++ [vrStop y]) -> ssorted (concat rs) -> In seg (concat rs) ->
  (forall r y, In r rs -> P r y -> ~ In seg r -> P' r y) -> (forall r y, In r rs -> P r y -> In seg r -> P' r (mkVrange (vrStart y) (vrStop y) (vrBad y ++ [x]))) -> Forall2 P' rs (addBadWal x seg ranges).
Proof.
  induction rs as [| r rs IH]; intros ranges HF HQ HS HI H1 H2; [destruct HI|]. inversion HF as [| ? y ? ys Hy HF2]; subst. cbn [concat] in *. apply ssorted_app_l in HS. destruct HS as (S1 & S2 & S3).
  destruct (HQ r y Hy) as (q & EQ). cbn [addBadWal]. destruct (strLtb_spec (vrStop y) seg) as [L | L].
  - assert (N : ~ In seg r).
    { intros F. rewrite EQ in S1, F. apply ssorted_app_l in S1. destruct S1 as (_ & _ & S1). apply in_app_or in F. destruct F as [F | [F | []]]; [exact (slt_asym _ _ L (S1 _ _ F (or_introl eq_refl))) | rewrite F in L; exact (slt_irrefl _ L)]. }
    constructor; [apply H1; auto; now left|]. apply IH; auto; [apply in_app_or in HI; destruct HI; [contradiction | assumption] | intros r' z Hr; apply H1; now right | intros r' z Hr; apply H2; now right].
  - assert (N : ~ In seg (concat rs)). { intros F. apply L. apply S3; [rewrite EQ; apply in_or_app; right; now left | exact F]. }
    constructor; [apply H2; auto; [now left | apply in_app_or in HI; destruct HI; [assumption | contradiction]]|].
    clear -HF2 N H1. revert N. induction HF2 as [| r' z rs zs Hz HF2 IH]; intros N; [constructor|]. cbn [concat] in N. constructor; [apply H1; [right; now left | exact Hz | intros F; apply N, in_or_app; now left]|].
    apply IH; [intros r0 z0 [-> | Hr]; apply H1; [now left | right; now right] | intros F; apply N, in_or_app; now right].
Qed.
Lemma addBad_runs size (bad bad' : list str -> list vbad -> Prop) x seg segs ranges : isRuns size bad segs ranges -> ssorted segs -> In seg segs -> (forall r b, bad r b -> ~ In seg r -> bad' r b) -> (forall r b, bad r b -> In seg r -> bad' r (b ++ [x])) ->
  isRuns size bad' segs (addBadWal x seg ranges).
Proof.
  intros (rs & EC & HF & H1 & H2) HS HI K1 K2. exists rs. split; [exact EC|]. split; [| split; assumption]. subst segs. refine (addBad_forall _ _ x seg rs ranges HF _ HS HI _ _).
  - intros r y (_ & E & _). exact E.
  - intros r y Hr (E1 & E2 & E3) N. split; [exact E1|]. split; [exact E2 | exact (K1 _ _ E3 N)].
  - intros r y Hr (E1 & E2 & E3) N. cbn [vrStart vrStop vrBad]. split; [exact E1|]. split; [exact E2 | exact (K2 _ _ E3 N)].
Qed.
Lemma runs_impl size (bad bad' : list str -> list vbad -> Prop) segs ranges : isRuns size bad segs ranges -> (forall r b, bad r b -> bad' r b) -> isRuns size bad' segs ranges.
Proof.
  intros (rs & EC & HF & H1 & H2) K. exists rs. split; [exact EC|]. split; [| split; assumption]. clear -HF K. induction HF as [| r y rs ys (E1 & E2 & E3) HF IH]; constructor; auto.
Qed.

Section Arch.
Variables (w : vworld) (o : option (option (str * str))) (ids0 : list str).
Notation listed := (listed w o).
Notation walFiles := (walFiles w o).
Hypothesis Hids : NoDup ids0.
Hypothesis Hpaths : forall id, In id ids0 -> NoDup (vwPaths w id) /\ forall p, In p (vwPaths w id) -> walPathOk p (vwFiles w id p).
Hypothesis Hsame : forall a b, In a ids0 -> In b ids0 -> sameId a b = true <-> a = b.
Hypothesis Hslash : forall id p f, In id ids0 -> In p (vwPaths w id) -> In f (vwFiles w id p) -> noSlash id /\ noSlash p /\ noSlash f.
Notation IA := (IA w o ids0).

Lemma files_sorted id p : ssorted (map segOf (walFiles id p)).
Proof.
  rewrite walFiles_listed. pose proof (listed_sorted w o id p) as HS. generalize (listed id p) as all, HS. clear HS. intros all HS.
  assert (K : forall files pre, all = pre ++ files -> segsSorted files -> ssorted (map segOf (filter (once all) files))).
  { induction files as [| f r IH]; intros pre E H; [constructor|]. cbn [filter]. inversion H as [| ? ? H1 H2]; subst.
    assert (X : ssorted (map segOf (filter (once (pre ++ f :: r)) r))) by (apply (IH (pre ++ [f])); [rewrite <- app_assoc; reflexivity | exact H1]).
    destruct (once (pre ++ f :: r) f) eqn:EO; [| exact X]. cbn [map]. constructor; [exact X|]. rewrite Forall_forall in *. intros s Hs. apply in_map_iff in Hs. destruct Hs as (g & <- & Hg). apply filter_In in Hg. destruct Hg as [Hg _].
    specialize (H2 _ (in_map segOf _ _ Hg)). apply sle_lt_eq in H2. destruct H2 as [H2 | H2]; [exact H2|]. exfalso.
    apply (eq_true_false_abs _ EO). apply (once_not _ f g pre r eq_refl); [apply in_or_app; now right | now symmetry]. }
  exact (K all [] eq_refl HS).
Qed.
Lemma pathsOf_all id l : NoDup l -> In id l -> pathsOf id (walPaths w l) = strLstSortAsc (vwPaths w id).
Proof.
  induction l as [| x l IH]; intros N H; [destruct H|]. inversion N as [| ? ? N1 N2]; subst. unfold walPaths. cbn [flat_map]. rewrite pathsOf_app. fold (walPaths w l). destruct H as [-> | H].
  - rewrite pathsOf_same. replace (pathsOf id (walPaths w l)) with (@nil str); [apply app_nil_r|]. symmetry. destruct (pathsOf id (walPaths w l)) as [| p q] eqn:E; [reflexivity|]. exfalso.
    assert (F : In p (pathsOf id (walPaths w l))) by (rewrite E; now left). apply pathsOf_in in F. apply in_flat_map in F. destruct F as (y & Hy & F). apply in_map_iff in F. destruct F as (z & E2 & _). injection E2 as -> _. exact (N1 Hy).
  - rewrite pathsOf_other by (intros ->; exact (N1 H)). exact (IH N2 H).
Qed.
Lemma segs_sorted d DA RA loaded es id : IA d DA RA loaded es -> In id ids0 -> ssorted (map segOf (flat_map (walFiles id) (pathsOf id loaded))).
Proof.
  intros HI Hid. assert (HS : ssorted (pathsOf id loaded)).
  { assert (X : ssorted (pathsOf id (walPaths w ids0))).
    { rewrite pathsOf_all by assumption. apply sle_nodup; [apply strLstSortAsc_sorted|]. apply (Permutation_NoDup (Permutation_sym (strLstSortAsc_perm _))). apply Hpaths, Hid. }
    rewrite <- (ia1 _ _ _ _ _ _ _ _ HI), pathsOf_app in X. apply ssorted_app_l in X. apply X. }
  assert (HP : forall p, In p (pathsOf id loaded) -> walPathOk p (listed id p)). { intros p Hp. apply (path_ok w o ids0 Hpaths). apply pathsOf_in in Hp. exact (ia_loaded _ _ _ _ _ _ _ _ _ HI Hp). }
  revert HS HP. generalize (pathsOf id loaded) as l. induction l as [| p l IH]; intros HS HP; [constructor|]. cbn [flat_map]. rewrite map_app. inversion HS as [| ? ? S1 S2]; subst. apply StronglySorted_app; [apply files_sorted | apply IH; [exact S1 | intros q Hq; apply HP; now right] |].
  intros x y Hx Hy. apply in_map_iff in Hx, Hy. destruct Hx as (f & <- & Hf). destruct Hy as (g & <- & Hg). apply in_flat_map in Hg. destruct Hg as (q & Hq & Hg). apply filter_In in Hf, Hg. destruct Hf as [Hf _], Hg as [Hg _].
  apply (prefix_slt 16). unfold segOf. rewrite !firstn_firstn. cbn [Nat.min]. rewrite (proj2 (HP p (or_introl eq_refl) _ Hf)), (proj2 (HP q (or_intror Hq) _ Hg)). rewrite Forall_forall in S2. exact (S2 q Hq).
Qed.

Lemma updFirst_map {A} (p : A -> bool) g : forall l l1 a l2, l = l1 ++ a :: l2 -> (forall x, In x l1 -> p x = false) -> p a = true -> updFirst p g l = l1 ++ g a :: l2.
Proof.
  intros l l1. revert l. induction l1 as [| x l1 IH]; intros l a l2 -> H1 H2; cbn [app updFirst].
  - now rewrite H2.
  - rewrite (H1 x (or_introl eq_refl)). f_equal. apply IH; auto. intros y Hy. apply H1. now right.
Qed.
Definition resultArch (id p f : str) (r : res vres) (a : varch) : varch :=
  if vresEqb (reason r) VOk then mkVarch (vaId a) (vaTotal a) (vaValid a + 1) (vaSize a) (vaRanges a)
  else mkVarch (vaId a) (vaTotal a) (vaValid a) (vaSize a) (addBadWal (mkVbad (slashed id (slashed p f)) (reason r)) (firstn 24 f) (vaRanges a)).
Lemma result_arch d DA RA loaded es id p f r a : IA d DA RA loaded es -> In (id, p, f) DA -> (r = Ok VOk \/ vresEqb (reason r) VOk = false) -> In a (vdArch d) ->
  (vaId a = id -> archIs w o (RA ++ [(id, p, f, r)]) (pathsOf id loaded) (resultArch id p f r a)) /\ (vaId a <> id -> archIs w o (RA ++ [(id, p, f, r)]) (pathsOf (vaId a) loaded) a).
Proof.
  intros HI HD HR Ha. destruct (ia6 _ _ _ _ _ _ _ _ HI a Ha) as (A1 & A2 & A3 & A4).
  assert (FR : failed r = negb (vresEqb (reason r) VOk)) by (destruct HR as [-> | H]; [reflexivity|]; rewrite H; destruct r as [[] | |]; try reflexivity; discriminate).
  split.
  - intros E. assert (HDW : In (id, p, f) (walWork w o loaded)) by (rewrite <- (ia2 _ _ _ _ _ _ _ _ HI); apply in_or_app; now left). apply work_in in HDW. destruct HDW as [W1 W2].
    assert (Hid : In id ids0). { pose proof (ia_loaded _ _ _ _ _ _ _ _ _ HI W1) as X. apply in_flat_map in X. destruct X as (i & Hi & X). apply in_map_iff in X. destruct X as (q & E2 & _). injection E2 as -> _. exact Hi. }
    unfold archIs, resultArch. rewrite E in *. destruct (vresEqb (reason r) VOk) eqn:EV; cbn [negb] in FR; cbn [vaId vaTotal vaValid vaSize vaRanges]; (split; [exact A1|]); rewrite filter_app; cbn [filter ofId snd]; rewrite strEqb_refl, FR; cbn [negb andb].
    + split; [rewrite app_length, A2; cbn [length]; lia|]. split; [exact A3|]. apply (runs_impl _ _ _ _ _ A4). intros q b H. unfold badsAre in *. rewrite filter_app. cbn [filter ofId snd]. rewrite FR, !andb_false_r, app_nil_r. exact H.
    + split; [rewrite app_nil_r; exact A2|]. split; [exact A3|]. apply (addBad_runs _ _ _ _ _ _ _ A4).
      * exact (segs_sorted _ _ _ _ _ _ HI Hid).
      * apply (in_map (firstn 24)). apply in_flat_map. exists p. split; [apply pathsOf_in; exact W1 | exact W2].
      * intros q b H N. unfold badsAre in *. rewrite filter_app. cbn [filter ofId fst snd]. replace (strLstExists q (firstn 24 f)) with false; [rewrite andb_false_r, app_nil_r; exact H|]. symmetry. apply not_true_is_false. rewrite strLstExists_in. exact N.
      * intros q b H N. unfold badsAre in *. rewrite filter_app. cbn [filter ofId fst snd]. replace (strLstExists q (firstn 24 f)) with true by (symmetry; apply strLstExists_in; exact N). rewrite strEqb_refl, FR. cbn [andb]. rewrite map_app. cbn [map badFile]. apply Permutation_app_tail. exact H.
  - intros NE. assert (NO : strEqb id (vaId a) = false) by (apply strEqb_neq; congruence). unfold archIs. split; [exact A1|]. rewrite filter_app. cbn [filter ofId]. rewrite NO. cbn [andb]. rewrite app_nil_r. split; [exact A2|]. split; [exact A3|].
    apply (runs_impl _ _ _ _ _ A4). intros q b H. unfold badsAre in *. rewrite filter_app. cbn [filter ofId]. rewrite NO. cbn [andb]. rewrite app_nil_r. exact H.
Qed.

Definition archKey (id p f : str) : str := slashed id (slashed repoArchive (slashed id (slashed p f))).
Lemma walJob_key id p f n j : walJob id p f n = Ok j -> vjKey j = archKey id p f.
Proof. unfold walJob. destruct (decodeHex _ _); cbn [bind]; try discriminate. intros H. now injection H as <-. Qed.
Lemma arch_split id p f : noSlash id -> noSlash p -> noSlash f -> splitSlash (archKey id p f) = [id; repoArchive; id; p; f].
Proof.
  intros H1 H2 H3. unfold archKey, slashed. rewrite !split_noslash by (assumption || (intros F; vm_compute in F; intuition discriminate)). now rewrite (split_one f H3).
Qed.
Definition errOf (archive : bool) (r : res vres) : Z := match r with Ok VOk => 0 | Ok r => logInvalid archive r | _ => 1 end.
Lemma arch_result d DA RA loaded es id p f r d' : IA d DA RA loaded es -> In (id, p, f) DA -> verifyResult (archKey id p f) r d = Ok d' ->
  IA d' DA (RA ++ [(id, p, f, r)]) loaded es /\ sameBackup d d' /\ vdErrors d' = vdErrors d + errOf true r /\ vdIds d' = vdIds d.
Proof.
  intros HI HD. assert (HDW : In (id, p, f) (walWork w o loaded)) by (rewrite <- (ia2 _ _ _ _ _ _ _ _ HI); apply in_or_app; now left). apply work_in in HDW. destruct HDW as [W1 W2].
  assert (HX : In id ids0 /\ In p (vwPaths w id)).
  { pose proof (ia_loaded _ _ _ _ _ _ _ _ _ HI W1) as X. apply in_flat_map in X. destruct X as (i & Hi & X). apply in_map_iff in X. destruct X as (q & E2 & Hq). injection E2 as -> ->. split; [exact Hi|]. exact (proj1 (strLstSortAsc_in _ _) Hq). }
  destruct HX as [Hid Hp]. assert (Hf : In f (vwFiles w id p)) by (apply filter_In in W2; destruct W2 as [W2 _]; apply filter_In in W2; destruct W2 as [W2 _]; exact (proj1 (strLstSortAsc_in _ _) W2)).
  destruct (Hslash id p f Hid Hp Hf) as (N1 & N2 & N3). unfold verifyResult. rewrite (arch_split id p f N1 N2 N3). cbn zeta. rewrite strEqb_refl.
  destruct (existsb (fun a => sameId (vaId a) id) (vdArch d)) eqn:EX; cbn [negb]; [| discriminate]. intros H. injection H as <-.
  fold (reason r). change (joinSlash [id; p; f]) with (slashed id (slashed p f)). cbn [last].
  set (g := fun a : varch => if vresEqb (reason r) VOk then _ else _).
  assert (INC : forall a, In a (vdArch d) -> In (vaId a) ids0). { intros a Ha. rewrite <- (ia3 _ _ _ _ _ _ _ _ HI). apply in_or_app. left. now apply in_map. }
  apply existsb_exists in EX. destruct EX as (a & Ha & Ea). apply (Hsame _ _ (INC a Ha) Hid) in Ea. destruct (in_split _ _ Ha) as (l1 & l2 & ES).
  assert (ND : NoDup (map vaId (vdArch d))). { apply (nodup_app_l _ (future d)). rewrite (ia3 _ _ _ _ _ _ _ _ HI). exact Hids. }
  assert (UF : updFirst (fun a => sameId (vaId a) id) g (vdArch d) = l1 ++ g a :: l2).
  { apply (updFirst_map _ _ _ l1 a l2 ES); [| apply Hsame; auto]. intros x Hx. apply not_true_is_false. intros F. assert (Hx2 : In x (vdArch d)) by (rewrite ES; apply in_or_app; now left). apply (Hsame _ _ (INC x Hx2) Hid) in F.
    rewrite ES, map_app in ND. cbn [map] in ND. apply NoDup_remove_2 in ND. apply ND, in_or_app. left. rewrite Ea, <- F. now apply in_map. }
  rewrite UF. assert (GI : vaId (g a) = vaId a) by (unfold g; destruct (vresEqb _ _); reflexivity).
  assert (LO : match lastOf (l1 ++ g a :: l2) with Some b => Some (vaId b) | None => None end = match lastOf (vdArch d) with Some b => Some (vaId b) | None => None end).
  { rewrite ES. destruct l2 as [| c l2] using rev_ind; [rewrite !lastOf_app; now rewrite GI|]. rewrite !app_comm_cons, !app_assoc, !lastOf_app. reflexivity. }
  set (d' := mkVdata _ _ _ _ _ _ _ _ _ _ _).
  assert (KD : known d' = known d). { unfold known, d'. cbn [vdArch vdIds]. destruct (lastOf (l1 ++ g a :: l2)), (lastOf (vdArch d)); try discriminate; [injection LO as LO; now rewrite LO | reflexivity]. }
  assert (VR : r = Ok VOk \/ vresEqb (reason r) VOk = false) by (destruct r as [[] | |]; auto).
  split; [| split; [repeat split | split; [destruct r as [[] | |]; reflexivity | reflexivity]]].
  destruct HI as [i1 i2 i3 i4 i5 i6 i7 i8] eqn:EHI. assert (HIA : IA d DA RA loaded es) by exact HI. clear EHI. constructor.
  - unfold remP in *. rewrite KD. exact i1.
  - unfold curT in *. rewrite KD. exact i2.
  - unfold future in *. rewrite KD. unfold d'. cbn [vdArch vdIds]. rewrite map_app. cbn [map]. rewrite GI. rewrite ES, map_app in i3. exact i3.
  - rewrite KD. exact i4.
  - exact i5.
  - unfold d'. cbn [vdArch]. intros b Hb. apply in_app_or in Hb. assert (X : b = g a \/ (In b (l1 ++ l2))) by (destruct Hb as [Hb | [Hb | Hb]]; [right; apply in_or_app; now left | left; now symmetry | right; apply in_or_app; now right]).
    destruct X as [-> | X].
    + rewrite GI. rewrite Ea. apply (result_arch d DA RA loaded es id p f r a HIA HD VR Ha). exact Ea.
    + apply (result_arch d DA RA loaded es id p f r b HIA HD VR); [rewrite ES; apply in_or_app; apply in_app_or in X; destruct X; [now left | right; now right]|].
      intros F. rewrite ES, map_app in ND. cbn [map] in ND. apply NoDup_remove_2 in ND. apply ND. rewrite Ea, <- F, <- map_app. now apply in_map.
  - intros x Hx. apply in_app_or in Hx. destruct Hx as [Hx | [<- | []]]; [exact (i7 x Hx) | exact HD].
  - exact i8.
Qed.
End Arch.
