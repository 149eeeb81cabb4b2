From Verif Require Import Base Str ExpireModel ExpireSpec.
From Coq Require Import Permutation Sorted.
Open Scope Z_scope.

(** * The backup list *)

Lemma NoDup_labels l : ordered l -> NoDup (map bkLabel l).
Proof. intros [H _]. now apply ssorted_NoDup. Qed.

Lemma label_inj l b c : NoDup (map bkLabel l) -> In b l -> In c l -> bkLabel b = bkLabel c -> b = c.
Proof.
  induction l as [|x l IH]; cbn; intros Hn Hb Hc E; [contradiction|]. inversion Hn as [|? ? Hx Hn']; subst.
  destruct Hb as [<-|Hb], Hc as [<-|Hc]; auto.
  - exfalso. apply Hx. rewrite E. now apply in_map.
  - exfalso. apply Hx. rewrite <- E. now apply in_map.
Qed.

Lemma filter_all {A} (f : A -> bool) l : (forall x, In x l -> f x = true) -> filter f l = l.
Proof. induction l as [|x l IH]; cbn; intros H; [reflexivity|]. rewrite (H x) by now left. f_equal. apply IH. auto. Qed.

Lemma filter_none {A} (f : A -> bool) l : (forall x, In x l -> f x = false) -> filter f l = [].
Proof. induction l as [|x l IH]; cbn; intros H; [reflexivity|]. rewrite (H x) by now left. apply IH. auto. Qed.

Lemma filter_filter {A} (f g : A -> bool) l : filter f (filter g l) = filter (fun x => g x && f x) l.
Proof. induction l as [|x l IH]; cbn; [reflexivity|]. destruct (g x); cbn; [destruct (f x)|]; now rewrite IH. Qed.

Lemma dataDelete_filter l lab : NoDup (map bkLabel l) ->
  dataDelete l lab = filter (fun b => negb (strEqb (bkLabel b) lab)) l.
Proof.
  revert lab. induction l as [|b r IH]; intros lab Hn; cbn [dataDelete filter]; [reflexivity|].
  inversion Hn as [|? ? Hb Hn']; subst. destruct (strEqb_spec (bkLabel b) lab) as [E|E]; cbn [negb].
  - rewrite filter_all.
    2:{ intros x Hx. apply negb_true_iff, strEqb_neq. intros E2. apply Hb. rewrite E, <- E2. now apply in_map. }
    destruct r as [|c r']; [reflexivity|]. f_equal. inversion Hn' as [|? ? Hc Hn'']; subst.
    pose proof (IH (bkLabel b) Hn') as H. cbn [dataDelete filter] in H.
    destruct (strEqb_spec (bkLabel c) (bkLabel b)) as [E3|E3].
    + exfalso. apply Hb. left. exact E3.
    + cbn [negb] in H. injection H as H. rewrite H. apply filter_all. intros x Hx. apply negb_true_iff, strEqb_neq.
      intros E2. apply Hb. right. rewrite <- E2. now apply in_map.
  - f_equal. now apply IH.
Qed.

Lemma NoDup_map_filter (f : backup -> bool) l : NoDup (map bkLabel l) -> NoDup (map bkLabel (filter f l)).
Proof.
  induction l as [|b l IH]; cbn; intros H; [constructor|]. inversion H as [|? ? Hb Hn]; subst.
  destruct (f b); cbn; [constructor|]; auto. intros Hi. apply Hb. apply in_map_iff in Hi. destruct Hi as (c & E & Hc).
  rewrite <- E. apply in_map. now apply filter_In in Hc.
Qed.

Lemma fold_delete_filter ds l : NoDup (map bkLabel l) ->
  fold_left dataDelete ds l = filter (fun b => negb (strLstExists ds (bkLabel b))) l.
Proof.
  revert l; induction ds as [|d ds IH]; intros l Hn; cbn [fold_left].
  - rewrite filter_all; auto.
  - rewrite dataDelete_filter by assumption. rewrite IH by (apply NoDup_map_filter; assumption).
    rewrite filter_filter. apply filter_ext. intros b. unfold strLstExists. cbn [existsb].
    destruct (strEqb (bkLabel b) d); reflexivity.
Qed.

Lemma ssorted_map_filter (f : backup -> bool) l : StronglySorted slt (map bkLabel l) -> StronglySorted slt (map bkLabel (filter f l)).
Proof.
  induction l as [|b l IH]; cbn; intros H; [constructor|]. inversion H as [|? ? Hs Hf]; subst.
  destruct (f b); cbn; [constructor|]; auto. apply Forall_forall. intros x Hx. rewrite Forall_forall in Hf. apply Hf.
  apply in_map_iff in Hx. destruct Hx as (c & E & Hc). rewrite <- E. apply in_map. now apply filter_In in Hc.
Qed.

Lemma ordered_filter f l : ordered l -> ordered (filter f l).
Proof.
  intros [H1 H2]. split; [now apply ssorted_map_filter|]. intros b p Hb. apply filter_In in Hb. apply H2. tauto.
Qed.

Lemma wellLabelled_filter f l : wellLabelled l -> wellLabelled (filter f l).
Proof. intros H b Hb. apply filter_In in Hb. apply H. tauto. Qed.

Lemma dataByLabel_some l lab b : dataByLabel l lab = Some b -> In b l /\ bkLabel b = lab.
Proof. intros H. apply find_some in H. destruct H as [H1 H2]. now apply strEqb_eq in H2. Qed.
Lemma dataByLabel_in l b : NoDup (map bkLabel l) -> In b l -> dataByLabel l (bkLabel b) = Some b.
Proof.
  intros Hn Hb. destruct (dataByLabel l (bkLabel b)) as [c|] eqn:E.
  - apply dataByLabel_some in E. destruct E as [Hc E]. f_equal. eapply label_inj; eauto.
  - pose proof (find_none _ _ E b Hb) as H. cbn in H. rewrite strEqb_refl in H. discriminate.
Qed.
Lemma labelExists_in l lab : labelExists l lab = true <-> In lab (map bkLabel l).
Proof.
  unfold labelExists. destruct (dataByLabel l lab) as [b|] eqn:E; split; intros H; auto; try discriminate.
  - apply dataByLabel_some in E. destruct E as [Hb <-]. now apply in_map.
  - apply in_map_iff in H. destruct H as (b & <- & Hb). pose proof (find_none _ _ E b Hb) as H. cbn in H.
    rewrite strEqb_refl in H. discriminate.
Qed.
Lemma labelExists_spec l lab : reflect (In lab (map bkLabel l)) (labelExists l lab).
Proof. apply iff_reflect. symmetry. apply labelExists_in. Qed.

(** * Dependents *)

Lemma dependsOn_trans l x y z : dependsOn l x y -> dependsOn l y z -> dependsOn l x z.
Proof. induction 1; intros; auto. eapply dep_prior; eauto. Qed.

Lemma dependsOn_le l x y : ordered l -> dependsOn l x y -> sle y x.
Proof.
  intros [_ Ho]. induction 1 as [x|b p y Hb Hp Hd IH]; [apply sle_refl|].
  apply slt_le. eapply sle_slt_trans; [exact IH|]. now apply Ho.
Qed.

Lemma dependsOn_inv l b y : ordered l -> In b l -> dependsOn l (bkLabel b) y ->
  bkLabel b = y \/ exists p, bkPrior b = Some p /\ dependsOn l p y.
Proof.
  intros Ho Hb Hd. inversion Hd as [x E|c p y' Hc Hp Hd' E]; subst; [now left|].
  assert (c = b) by (eapply label_inj; eauto using NoDup_labels). subst c. right. eauto.
Qed.

Lemma dependsOn_cases l x y : dependsOn l x y ->
  x = y \/ exists c p, In c l /\ bkLabel c = x /\ bkPrior c = Some p /\ dependsOn l p y.
Proof. intros [z|c p z Hc Hp Hd]; [now left|right]. exists c, p. auto. Qed.

Lemma depLoop_spec l lab : ordered l ->
  forall bs pre acc, l = pre ++ bs ->
    (forall x, In x acc <-> x = lab \/ (In x (map bkLabel pre) /\ dependsOn l x lab)) ->
    forall x, In x (depLoop bs acc) <-> x = lab \/ (In x (map bkLabel l) /\ dependsOn l x lab).
Proof.
  intros Ho. pose proof Ho as [Hs Hp].
  induction bs as [|b bs IH]; intros pre acc El Hacc x; cbn [depLoop].
  - rewrite Hacc. rewrite app_nil_r in El. subst pre. reflexivity.
  - assert (Hb : In b l) by (rewrite El; apply in_or_app; right; now left).
    apply (IH (pre ++ [b])). { rewrite <- app_assoc. exact El. }
    clear IH x. intros x. rewrite map_app, in_app_iff. cbn [map In].
    assert (Hkey : dependsOn l (bkLabel b) lab <->
                   bkLabel b = lab \/ exists p, bkPrior b = Some p /\ In p acc).
    { split; intros H.
      - destruct (dependsOn_inv l b lab Ho Hb H) as [E|(p & Ep & Hd)]; [now left|right].
        exists p. split; [exact Ep|]. apply Hacc. destruct (dependsOn_cases _ _ _ Hd) as [E|(c & q & Hc & Ec & Hq & Hd')]; [now left|].
        right. split; [|exact Hd].
        assert (Hlt : slt (bkLabel c) (bkLabel b)) by (rewrite Ec; now apply Hp).
        rewrite El in Hc, Hs. apply in_app_or in Hc. destruct Hc as [Hc|[Hc|Hc]].
        + rewrite <- Ec. now apply in_map.
        + subst c. exfalso; eapply slt_irrefl; eauto.
        + exfalso. rewrite map_app in Hs. apply StronglySorted_app_inv in Hs. destruct Hs as (_ & Hs & _).
          cbn in Hs. inversion Hs as [|? ? _ Hf]. rewrite Forall_forall in Hf.
          eapply slt_asym; [exact Hlt|]. apply Hf. now apply in_map.
      - destruct H as [->|(p & Ep & Hin)]; [constructor|]. apply Hacc in Hin. eapply dep_prior; eauto.
        destruct Hin as [->|[_ H]]; [constructor|exact H]. }
    destruct (bkPrior b) as [p|] eqn:Ep.
    + destruct (strLstExists_spec acc p) as [Hin|Hin].
      * rewrite in_app_iff, Hacc. cbn [In]. split.
        -- intros [[H|[H1 H2]]|[H|[]]]; auto. subst x. right. split; [auto|]. apply Hkey. right; eauto.
        -- intros [H|[[H|[H|[]]] H2]]; auto.
      * rewrite Hacc. split.
        -- intros [H|[H1 H2]]; auto.
        -- intros [H|[[H|[H|[]]] H2]]; auto. subst x. apply Hkey in H2. destruct H2 as [H2|(q & Eq & H2)]; [auto|].
           injection Eq as <-. contradiction.
    + rewrite Hacc. split.
      * intros [H|[H1 H2]]; auto.
      * intros [H|[[H|[H|[]]] H2]]; auto. subst x. apply Hkey in H2. destruct H2 as [H2|(q & Eq & H2)]; [auto|discriminate].
Qed.

Lemma dependentList_in l lab x : ordered l ->
  In x (dependentList l lab) <-> x = lab \/ (In x (map bkLabel l) /\ dependsOn l x lab).
Proof.
  intros Ho. unfold dependentList. apply (depLoop_spec l lab Ho l []); [reflexivity|].
  intros y. cbn. split; [intros [<-|[]]; auto|intros [->|[[] _]]; auto].
Qed.

Lemma dependentList_in' l lab b : ordered l -> In b l ->
  (In (bkLabel b) (dependentList l lab) <-> dependsOn l (bkLabel b) lab).
Proof.
  intros Ho Hb. rewrite dependentList_in by assumption. split.
  - intros [->|[_ H]]; [constructor|exact H].
  - intros H. right. split; [now apply in_map|exact H].
Qed.

(** * expireBackup *)

Lemma fold_delete_dependents l lab ds : ordered l -> (forall x, In x ds <-> In x (dependentList l lab)) ->
  exists f, fold_left dataDelete ds l = filter f l /\
            forall b, In b l -> (f b = true <-> ~ dependsOn l (bkLabel b) lab).
Proof.
  intros Ho Hds. eexists. split; [apply fold_delete_filter, NoDup_labels, Ho|].
  intros b Hb. rewrite negb_true_iff. rewrite <- (dependentList_in' l lab b Ho Hb), <- Hds.
  destruct (strLstExists_spec ds (bkLabel b)) as [H|H]; split; intros; try discriminate; try tauto.
Qed.

Lemma expireBackup_list dry l lab l' o e : ordered l -> expireBackup dry l lab = (l', o, e) ->
  exists f, l' = filter f l /\ forall b, In b l -> (f b = true <-> ~ dependsOn l (bkLabel b) lab).
Proof.
  intros Ho H. unfold expireBackup in H. injection H as <- _ _.
  apply fold_delete_dependents; [exact Ho|]. intros x. apply strLstSortDesc_in.
Qed.

Lemma expireBackup_in dry l lab l' o e : ordered l -> expireBackup dry l lab = (l', o, e) ->
  forall b, In b l' <-> In b l /\ ~ dependsOn l (bkLabel b) lab.
Proof.
  intros Ho H b. destruct (expireBackup_list _ _ _ _ _ _ Ho H) as (f & -> & Hf).
  rewrite filter_In. split; intros [H1 H2]; split; auto; now apply Hf.
Qed.

(** Dependencies of a surviving entry are the same before and after. *)
Definition survives (l l' : list backup) (P : str -> Prop) : Prop :=
  forall b, In b l' <-> In b l /\ ~ (exists y, P y /\ dependsOn l (bkLabel b) y).

Lemma dependsOn_sub l l' x y : (forall b, In b l' -> In b l) -> dependsOn l' x y -> dependsOn l x y.
Proof. intros Hs. induction 1; [constructor|]. eapply dep_prior; eauto. Qed.

Lemma dependsOn_survives l l' P x z : survives l l' P ->
  ~ (exists y, P y /\ dependsOn l x y) -> (dependsOn l' x z <-> dependsOn l x z).
Proof.
  intros Hs Hx. split.
  - apply dependsOn_sub. intros b Hb. now apply Hs in Hb.
  - intros Hd. induction Hd as [x|b p z Hb Hp Hd IH]; [constructor|].
    eapply dep_prior; [|exact Hp|].
    + apply Hs. split; [exact Hb|exact Hx].
    + apply IH. intros (y & Hy & Hpy). apply Hx. exists y. split; [exact Hy|]. eapply dep_prior; eauto.
Qed.

Lemma survives_refl l : survives l l (fun _ => False).
Proof. intros b. split; [|tauto]. intros H. split; [exact H|]. intros (y & [] & _). Qed.

Lemma survives_trans l1 l2 l3 P Q : survives l1 l2 P -> survives l2 l3 Q -> survives l1 l3 (fun y => P y \/ Q y).
Proof.
  intros H1 H2 b. rewrite (H2 b), (H1 b). split.
  - intros [[Hb Hp] Hq]. split; [exact Hb|]. intros (y & [Hy|Hy] & Hd); [eauto|].
    apply Hq. exists y. split; [exact Hy|]. now apply (dependsOn_survives l1 l2 P).
  - intros [Hb Hn]. assert (Hp : ~ exists y, P y /\ dependsOn l1 (bkLabel b) y).
    { intros (y & Hy & Hd). apply Hn. eauto. }
    repeat split; auto. intros (y & Hy & Hd). apply Hn. exists y. split; [auto|].
    now apply (dependsOn_survives l1 l2 P) in Hd.
Qed.

Lemma survives_ext l l' (P Q : str -> Prop) : (forall x, P x <-> Q x) -> survives l l' P -> survives l l' Q.
Proof.
  intros He H b. rewrite (H b). split; intros [Hb Hn]; split; auto; intros (y & Hy & Hd); apply Hn; exists y;
    split; auto; now apply He.
Qed.

Lemma expireBackup_survives dry l lab l' o e : ordered l -> expireBackup dry l lab = (l', o, e) ->
  survives l l' (fun y => y = lab).
Proof.
  intros Ho H b. rewrite (expireBackup_in _ _ _ _ _ _ Ho H b). split; intros [Hb Hn]; split; auto.
  - intros (y & -> & Hd). auto.
  - intros Hd. apply Hn. eauto.
Qed.

(** What a filtered list inherits. *)
Definition sublist (l' l : list backup) : Prop := exists f, l' = filter f l.
Lemma sublist_refl l : sublist l l.
Proof. exists (fun _ => true). symmetry. now apply filter_all. Qed.
Lemma sublist_trans l1 l2 l3 : sublist l1 l2 -> sublist l2 l3 -> sublist l1 l3.
Proof. intros [f ->] [g ->]. rewrite filter_filter. eexists; reflexivity. Qed.
Lemma sublist_ordered l' l : sublist l' l -> ordered l -> ordered l'.
Proof. intros [f ->]. apply ordered_filter. Qed.
Lemma sublist_wellLabelled l' l : sublist l' l -> wellLabelled l -> wellLabelled l'.
Proof. intros [f ->]. apply wellLabelled_filter. Qed.
Lemma sublist_in l' l b : sublist l' l -> In b l' -> In b l.
Proof. intros [f ->] H. now apply filter_In in H. Qed.

Lemma survives_closed l l' P : survives l l' P -> ancestorsListed l -> ancestorsListed l'.
Proof.
  intros Hs Hc b p Hb Hp. apply Hs in Hb. destruct Hb as [Hb Hn]. destruct (Hc b p Hb Hp) as (b' & Hb' & E).
  exists b'. split; [|exact E]. apply Hs. split; [exact Hb'|]. rewrite E. intros (y & Hy & Hd). apply Hn. exists y.
  split; [exact Hy|]. eapply dep_prior; eauto.
Qed.

Lemma survives_good l l' P : sublist l' l -> survives l l' P -> goodHistory l -> goodHistory l'.
Proof.
  intros Hsub Hs (H1 & H2 & H3). split; [|split]; eauto using sublist_ordered, sublist_wellLabelled, survives_closed.
Qed.

Lemma expireList_ok dry : forall labs l l' o e, ordered l -> expireList dry l labs = (l', o, e) ->
  sublist l' l /\ survives l l' (fun y => In y labs).
Proof.
  induction labs as [|x r IH]; intros l l' o e Ho H; cbn [expireList] in H.
  - injection H as <- _ _. split; [apply sublist_refl|]. eapply survives_ext; [|apply survives_refl]. cbn. tauto.
  - destruct (expireBackup dry l x) as [[l1 o1] e1] eqn:E1. destruct (expireList dry l1 r) as [[l2 o2] e2] eqn:E2.
    injection H as <- _ _. destruct (expireBackup_list _ _ _ _ _ _ Ho E1) as (f & Ef & _).
    assert (S1 : sublist l1 l) by (exists f; exact Ef).
    destruct (IH _ _ _ _ (sublist_ordered _ _ S1 Ho) E2) as [S2 V2]. split; [eapply sublist_trans; eauto|].
    eapply survives_ext; [|eapply survives_trans; [eapply expireBackup_survives; eauto|exact V2]].
    intros y. cbn. split; intros [H|H]; auto.
Qed.

(** * Labels *)

Lemma labelFull_len s : labelFull s = true -> length s = 16%nat.
Proof. unfold labelFull. rewrite !andb_true_iff, Nat.eqb_eq. tauto. Qed.
Lemma labelDep_len c s : labelDep c s = true -> length s = 33%nat.
Proof. unfold labelDep. rewrite !andb_true_iff, Nat.eqb_eq. tauto. Qed.
Lemma labelFull_not_dep s : labelFull s = true -> labelDiff s = false /\ labelIncr s = false.
Proof.
  intros H. apply labelFull_len in H. unfold labelDiff, labelIncr, labelDep. rewrite H. cbn. auto.
Qed.
Lemma fullOf_full s : labelFull s = true -> fullOf s = s.
Proof. intros H. apply labelFull_len in H. unfold fullOf. rewrite <- H. apply firstn_all. Qed.
Lemma labelDep_full c s : labelDep c s = true -> labelFull (fullOf s) = true.
Proof. unfold labelDep, fullOf. rewrite !andb_true_iff. tauto. Qed.
Lemma fullOf_idem s : fullOf (fullOf s) = fullOf s.
Proof. unfold fullOf. rewrite firstn_firstn. reflexivity. Qed.

Lemma wellLabelled_full l b : wellLabelled l -> In b l -> (labelFull (bkLabel b) = true <-> bkPrior b = None).
Proof.
  intros Hw Hb. specialize (Hw b Hb). destruct (bkPrior b) as [p|]; [|tauto].
  destruct Hw as [H _]. split; [|discriminate]. intros Hf. apply labelFull_not_dep in Hf. destruct Hf as [E1 E2].
  rewrite E1, E2 in H. discriminate.
Qed.
Lemma wellLabelled_fullOf l b : wellLabelled l -> In b l -> labelFull (fullOf (bkLabel b)) = true.
Proof.
  intros Hw Hb. specialize (Hw b Hb). destruct (bkPrior b) as [p|].
  - destruct Hw as [H _]. apply orb_true_iff in H. destruct H as [H|H]; eapply labelDep_full; exact H.
  - rewrite fullOf_full; assumption.
Qed.

(** Depending on something means belonging to the same full backup. *)
Lemma dependsOn_fullOf l x y : wellLabelled l -> dependsOn l x y -> fullOf x = fullOf y.
Proof.
  intros Hw. induction 1 as [x|b p y Hb Hp Hd IH]; [reflexivity|].
  specialize (Hw b Hb). rewrite Hp in Hw. destruct Hw as [_ Hw]. unfold fullOf in *. congruence.
Qed.

(** Every listed backup reaches its full backup, which is listed. *)
Lemma reaches_full_aux l : goodHistory l -> forall n b, In b l ->
  (length (filter (fun c => strLtb (bkLabel c) (bkLabel b)) l) < n)%nat ->
  dependsOn l (bkLabel b) (fullOf (bkLabel b)) /\ exists f, In f l /\ bkLabel f = fullOf (bkLabel b).
Proof.
  intros (Ho & Hc & Hw). pose proof Ho as [_ Hlt]. induction n as [|n IH]; intros b Hb Hn; [lia|].
  pose proof (Hw b Hb) as Hwb. destruct (bkPrior b) as [p|] eqn:Ep.
  - destruct Hwb as [_ Hpre]. destruct (Hc b p Hb Ep) as (b' & Hb' & E).
    specialize (Hlt b p Hb Ep).
    assert (Hsmall : (length (filter (fun c => strLtb (bkLabel c) (bkLabel b')) l) < n)%nat).
    { assert (Hgen : forall m : list backup, (length (filter (fun c => strLtb (bkLabel c) (bkLabel b')) m) <=
                              length (filter (fun c => strLtb (bkLabel c) (bkLabel b)) m))%nat).
      { induction m as [|c m IHm]; cbn; [lia|].
        destruct (strLtb_spec (bkLabel c) (bkLabel b')) as [H1|H1], (strLtb_spec (bkLabel c) (bkLabel b)) as [H2|H2]; cbn; try lia.
        exfalso. apply H2. eapply slt_trans; [exact H1|]. rewrite E. exact Hlt. }
      apply in_split in Hb'. destruct Hb' as (l1 & l2 & El). rewrite El in *. clear El.
      rewrite filter_app in *. cbn [filter] in *. rewrite app_length in *.
      destruct (strLtb_spec (bkLabel b') (bkLabel b')) as [H1|H1]; [exfalso; eapply slt_irrefl; eauto|].
      destruct (strLtb_spec (bkLabel b') (bkLabel b)) as [H2|H2]; [|rewrite E in H2; contradiction].
      cbn [length] in Hn. pose proof (Hgen l1). pose proof (Hgen l2). lia. }
    destruct (IH b' Hb' Hsmall) as [Hd (f & Hf & Ef)]. rewrite E in *.
    assert (EE : fullOf p = fullOf (bkLabel b)) by exact Hpre. rewrite EE in *.
    split; [eapply dep_prior; eauto|]. exists f. auto.
  - rewrite fullOf_full by exact Hwb. split; [constructor|]. exists b; auto.
Qed.

Lemma reaches_full l b : goodHistory l -> In b l ->
  dependsOn l (bkLabel b) (fullOf (bkLabel b)) /\ exists f, In f l /\ bkLabel f = fullOf (bkLabel b).
Proof. intros Hg Hb. eapply reaches_full_aux; eauto. Qed.

Lemma dependsOn_full l b f : goodHistory l -> In b l -> labelFull f = true ->
  (dependsOn l (bkLabel b) f <-> fullOf (bkLabel b) = f).
Proof.
  intros Hg Hb Hf. split; intros H.
  - rewrite (dependsOn_fullOf l _ f); [now apply fullOf_full|apply Hg|exact H].
  - subst f. now apply reaches_full.
Qed.

(** * Full retention *)

Lemma older_newest {A} n (l : list A) : older n l ++ newest n l = l.
Proof. apply firstn_skipn. Qed.

Lemma in_fullLabels l f : In f (fullLabels l) <-> exists b, In b l /\ bkLabel b = f /\ labelFull f = true.
Proof.
  unfold fullLabels. rewrite filter_In, in_map_iff. split.
  - intros [(b & E & Hb) Hf]. eauto.
  - intros (b & Hb & E & Hf). split; [eauto|exact Hf].
Qed.

Lemma NoDup_filter {A} (f : A -> bool) l : NoDup l -> NoDup (filter f l).
Proof. induction 1; cbn; [constructor|]. destruct (f x); [constructor|]; auto. rewrite filter_In. tauto. Qed.

Lemma NoDup_app_disjoint {A} (l1 l2 : list A) x : NoDup (l1 ++ l2) -> In x l1 -> In x l2 -> False.
Proof.
  induction l1 as [|a l1 IH]; cbn; intros Hn H1 H2; [contradiction|]. inversion Hn; subst.
  destruct H1 as [->|H1]; [apply H3, in_or_app; now right|eauto].
Qed.

Lemma expireFull_spec dry n l l' o e : goodHistory l -> (0 < n)%nat -> expireFull dry n l = (l', o, e) ->
  goodHistory l' /\ sublist l' l /\
  (forall b, In b l' <-> In b l /\ In (fullOf (bkLabel b)) (newest n (fullLabels l))) /\
  fullLabels l' = newest n (fullLabels l).
Proof.
  intros Hg Hn H. pose proof Hg as (Ho & Hc & Hw).
  assert (Hrel : forall b, In b l -> (In (fullOf (bkLabel b)) (newest n (fullLabels l)) <->
                     ~ exists y, In y (older n (fullLabels l)) /\ dependsOn l (bkLabel b) y)).
  { intros b Hb. split.
    - intros Hnew (y & Hy & Hd).
      assert (Hyf : labelFull y = true).
      { assert (In y (fullLabels l)) as Hy' by (rewrite <- (older_newest n (fullLabels l)); apply in_or_app; now left).
        apply in_fullLabels in Hy'. destruct Hy' as (? & ? & ? & Hy'). exact Hy'. }
      apply (dependsOn_full l b y Hg Hb Hyf) in Hd. rewrite Hd in Hnew.
      eapply (NoDup_app_disjoint (older n (fullLabels l)) (newest n (fullLabels l)) y); eauto.
      rewrite older_newest. apply NoDup_filter, NoDup_labels, Ho.
    - intros Hno. destruct (reaches_full l b Hg Hb) as [Hd (f & Hf & Ef)].
      assert (Hin : In (fullOf (bkLabel b)) (fullLabels l)).
      { apply in_fullLabels. exists f. split; [exact Hf|]. split; [exact Ef|]. eapply wellLabelled_fullOf; eauto. }
      rewrite <- (older_newest n (fullLabels l)) in Hin. apply in_app_or in Hin. destruct Hin as [Hin|Hin]; [|exact Hin].
      exfalso. apply Hno. eauto. }
  assert (Hmain : sublist l' l /\ survives l l' (fun y => In y (older n (fullLabels l)))).
  { unfold expireFull in H. rewrite (proj2 (Nat.ltb_lt 0 n) Hn) in H.
    change (labelList labelFull l) with (fullLabels l) in H.
    destruct (Nat.ltb_spec n (length (fullLabels l))) as [Hlt|Hge].
    - eapply expireList_ok; eauto.
    - injection H as <- _ _. split; [apply sublist_refl|]. eapply survives_ext; [|apply survives_refl].
      intros x. unfold older. replace (length (fullLabels l) - n)%nat with 0%nat by lia. cbn. tauto. }
  destruct Hmain as [Hsub Hsv].
  assert (Hin : forall b, In b l' <-> In b l /\ In (fullOf (bkLabel b)) (newest n (fullLabels l))).
  { intros b. rewrite (Hsv b). split; intros [H1 H2]; split; auto; now apply Hrel. }
  split; [eapply survives_good; eauto|]. split; [exact Hsub|]. split; [exact Hin|].
  apply ssorted_unique.
  - apply StronglySorted_filter. destruct Hsub as [f ->]. apply ssorted_map_filter, Ho.
  - assert (Hs : ssorted (fullLabels l)) by apply StronglySorted_filter, Ho.
    rewrite <- (older_newest n (fullLabels l)) in Hs. apply StronglySorted_app_inv in Hs. tauto.
  - intros f. rewrite in_fullLabels. split.
    + intros (b & Hb & E & Hf). apply Hin in Hb. destruct Hb as [_ Hb]. rewrite E, fullOf_full in Hb; assumption.
    + intros Hf. assert (In f (fullLabels l)) as Hf' by (rewrite <- (older_newest n (fullLabels l)); apply in_or_app; now right).
      apply in_fullLabels in Hf'. destruct Hf' as (b & Hb & E & Hff). exists b. split; [|auto].
      apply Hin. split; [exact Hb|]. rewrite E, fullOf_full; assumption.
Qed.

(** * Differential retention *)

Lemma expireDiff_spec dry n l l' o e : goodHistory l -> (0 < n)%nat -> expireDiff dry n l = (l', o, e) ->
  goodHistory l' /\ sublist l' l /\
  (forall b, In b l' <-> In b l /\
     ~ exists d, In d (older n (fullDiffLabels l)) /\ labelDiff d = true /\ dependsOn l (bkLabel b) d) /\
  fullLabels l' = fullLabels l.
Proof.
  intros Hg Hn H. pose proof Hg as (Ho & Hc & Hw).
  assert (Hmain : sublist l' l /\ survives l l' (fun d => In d (older n (fullDiffLabels l)) /\ labelDiff d = true)).
  { unfold expireDiff in H. rewrite (proj2 (Nat.ltb_lt 0 n) Hn) in H.
    change (labelList labelFullDiff l) with (fullDiffLabels l) in H.
    destruct (Nat.ltb_spec n (length (fullDiffLabels l))) as [Hlt|Hge].
    - destruct (expireList_ok _ _ _ _ _ _ Ho H) as [H1 H2]. split; [exact H1|]. eapply survives_ext; [|exact H2].
      intros x. rewrite filter_In. unfold older. split; intros [Ha Hb]; split; auto.
      + assert (Hx : In x (fullDiffLabels l)).
        { rewrite <- (older_newest n (fullDiffLabels l)). apply in_or_app. now left. }
        apply filter_In in Hx. destruct Hx as [_ Hx]. apply negb_true_iff in Hb. rewrite Hb in Hx. exact Hx.
      + apply negb_true_iff. destruct (labelFull x) eqn:E; [|reflexivity]. apply labelFull_not_dep in E.
        destruct E as [E _]. congruence.
    - injection H as <- _ _. split; [apply sublist_refl|]. eapply survives_ext; [|apply survives_refl].
      intros x. unfold older. replace (length (fullDiffLabels l) - n)%nat with 0%nat by lia. cbn. tauto. }
  destruct Hmain as [Hsub Hsv].
  assert (Hin : forall b, In b l' <-> In b l /\
     ~ exists d, In d (older n (fullDiffLabels l)) /\ labelDiff d = true /\ dependsOn l (bkLabel b) d).
  { intros b. rewrite (Hsv b). split; intros [H1 H2]; split; auto; intros (d & Hd); apply H2; exists d; tauto. }
  split; [eapply survives_good; eauto|]. split; [exact Hsub|]. split; [exact Hin|].
  apply ssorted_unique.
  - apply StronglySorted_filter. destruct Hsub as [f ->]. apply ssorted_map_filter, Ho.
  - apply StronglySorted_filter, Ho.
  - intros f. rewrite !in_fullLabels. split; intros (b & Hb & E & Hf); exists b; (split; [|auto]).
    + now apply Hin in Hb.
    + apply Hin. split; [exact Hb|]. intros (d & _ & Hd & Hdep).
      rewrite E in Hdep. pose proof (dependsOn_fullOf l f d Hw Hdep) as Ef.
      rewrite (fullOf_full f Hf) in Ef.
      assert (Hbf : bkPrior b = None) by (eapply wellLabelled_full; eauto; rewrite E; exact Hf).
      rewrite <- E in Hdep. destruct (dependsOn_inv l b d Ho Hb Hdep) as [E2|(p & Ep & _)]; [|congruence].
      rewrite E in E2. subst d. apply labelFull_not_dep in Hf. destruct Hf; congruence.
Qed.

Lemma expireDiff_labels dry n l l' o e : goodHistory l -> diffsOnFulls l -> (0 < n)%nat -> expireDiff dry n l = (l', o, e) ->
  forall x, In x (fullDiffLabels l') <->
            In x (fullDiffLabels l) /\ (labelFull x = true \/ In x (newest n (fullDiffLabels l))).
Proof.
  intros Hg Hd Hn H. pose proof Hg as (Ho & Hc & Hw). destruct (expireDiff_spec _ _ _ _ _ _ Hg Hn H) as (Hg' & Hsub & Hin & Hfull).
  intros x. split.
  - intros Hx. pose proof Hx as Hx0. apply filter_In in Hx. destruct Hx as [Hx Hxl]. apply in_map_iff in Hx. destruct Hx as (b & E & Hb).
    apply Hin in Hb. destruct Hb as [Hb Hno].
    assert (Hx' : In x (fullDiffLabels l)) by (apply filter_In; split; [rewrite <- E; now apply in_map|exact Hxl]).
    split; [exact Hx'|]. destruct (labelFull x) eqn:Ef; [now left|right].
    rewrite <- (older_newest n (fullDiffLabels l)) in Hx'. apply in_app_or in Hx'. destruct Hx' as [Hx'|Hx']; [|exact Hx'].
    exfalso. apply Hno. exists x. cbn in Hxl. repeat split; auto. rewrite E. constructor.
  - intros [Hx Hor]. pose proof Hx as Hx0. apply filter_In in Hx. destruct Hx as [Hx Hxl]. apply in_map_iff in Hx. destruct Hx as (b & E & Hb).
    apply filter_In. split; [|exact Hxl]. apply in_map_iff. exists b. split; [exact E|]. apply Hin. split; [exact Hb|].
    intros (d & Hdo & Hdd & Hdep).
    destruct (dependsOn_inv l b d Ho Hb Hdep) as [E2|(p & Ep & Hdep2)].
    + rewrite E in E2. subst d. destruct Hor as [Hf|Hnew].
      * apply labelFull_not_dep in Hf. destruct Hf; congruence.
      * eapply (NoDup_app_disjoint (older n (fullDiffLabels l)) (newest n (fullDiffLabels l)) x); eauto.
        rewrite older_newest. apply NoDup_filter, NoDup_labels, Ho.
    + assert (Hxd : labelDiff x = true).
      { destruct (labelFull x) eqn:Ef; [|exact Hxl]. rewrite <- E in Ef.
        assert (bkPrior b = None) by (eapply wellLabelled_full; eauto). congruence. }
      rewrite <- E in Hxd. pose proof (Hd b p Hb Hxd Ep) as Hpf.
      destruct (Hc b p Hb Ep) as (c & Hcin & Ec). rewrite <- Ec in Hdep2.
      assert (bkPrior c = None) by (eapply wellLabelled_full; eauto; rewrite Ec; exact Hpf).
      destruct (dependsOn_inv l c d Ho Hcin Hdep2) as [E3|(q & Eq & _)]; [|congruence].
      rewrite Ec in E3. subst d. apply labelFull_not_dep in Hpf. destruct Hpf; congruence.
Qed.
