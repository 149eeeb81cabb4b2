From Verif Require Import Base Str ExpireModel ExpireSpec ExpireProof HistExpireModel HistExpireSpec.
From Coq Require Import Permutation Sorted.
Open Scope Z_scope.

Lemma aLabel_any s : labelAny s = true <-> aLabel s.
Proof. unfold labelAny, aLabel. rewrite !orb_true_iff. tauto. Qed.

Lemma digits_nodot s : forallb isDigit s = true -> ~ In 46 s.
Proof. intros H Hi. rewrite forallb_forall in H. apply H in Hi. discriminate. Qed.
Lemma dateTime_nodot s : isDateTime s = true -> ~ In 46 s.
Proof.
  unfold isDateTime. rewrite !andb_true_iff. intros (((H1 & H2) & H3) & H4) Hi. apply digits_nodot in H2, H4. apply strEqb_eq in H3.
  rewrite <- (firstn_skipn 8 s) in Hi. apply in_app_or in Hi. destruct Hi as [Hi|Hi]; [auto|].
  rewrite <- (firstn_skipn 1 (skipn 8 s)) in Hi. apply in_app_or in Hi. destruct Hi as [Hi|Hi].
  - rewrite H3 in Hi. destruct Hi as [E|[]]. discriminate.
  - apply H4. replace (skipn 9 s) with (skipn 1 (skipn 8 s)); [exact Hi|]. clear. do 8 (destruct s as [|? s]; [reflexivity|]). reflexivity.
Qed.
Lemma full_nodot s : labelFull s = true -> ~ In 46 s.
Proof.
  unfold labelFull. rewrite !andb_true_iff. intros ((H1 & H2) & H3) Hi. apply dateTime_nodot in H2. apply strEqb_eq in H3.
  rewrite <- (firstn_skipn 15 s) in Hi. apply in_app_or in Hi. destruct Hi as [Hi|Hi]; [auto|]. rewrite H3 in Hi. destruct Hi as [E|[]]; discriminate.
Qed.
Lemma dep_nodot c s : c <> 46 -> labelDep c s = true -> ~ In 46 s.
Proof.
  intros Hc. unfold labelDep. rewrite !andb_true_iff. intros ((((H1 & H2) & H3) & H4) & H5) Hi. apply full_nodot in H2. apply dateTime_nodot in H4.
  apply strEqb_eq in H3, H5. apply Nat.eqb_eq in H1.
  rewrite <- (firstn_skipn 16 s) in Hi. apply in_app_or in Hi. destruct Hi as [Hi|Hi]; [auto|].
  rewrite <- (firstn_skipn 1 (skipn 16 s)) in Hi. apply in_app_or in Hi. destruct Hi as [Hi|Hi].
  { rewrite H3 in Hi. destruct Hi as [E|[]]. discriminate. }
  assert (E17 : skipn 1 (skipn 16 s) = skipn 17 s). { clear. do 16 (destruct s as [|? s]; [reflexivity|]). reflexivity. }
  rewrite E17 in Hi. rewrite <- (firstn_skipn 15 (skipn 17 s)) in Hi. apply in_app_or in Hi. destruct Hi as [Hi|Hi]; [auto|].
  assert (E32 : skipn 15 (skipn 17 s) = skipn 32 s). { clear. do 32 (destruct s as [|? s]; [reflexivity|]). reflexivity. }
  rewrite E32, H5 in Hi. destruct Hi as [E|[]]. auto.
Qed.
Lemma label_nodot s : aLabel s -> ~ In 46 s.
Proof. intros [H|[H|H]]; [now apply full_nodot|apply (dep_nodot 68); auto; lia|apply (dep_nodot 73); auto; lia]. Qed.

Lemma beforeDot_app s r : ~ In 46 s -> beforeDot (s ++ 46 :: r) = s.
Proof.
  induction s as [|c s IH]; intros H; [reflexivity|]. cbn. destruct (Z.eqb_spec c 46) as [->|E]; [exfalso; apply H; now left|].
  f_equal. apply IH. intros Hi. apply H. now right.
Qed.

Lemma isHistFile_spec f : isHistFile f = true <-> exists lab, aLabel lab /\ f = histFile lab.
Proof.
  unfold isHistFile, histFile. rewrite !andb_true_iff, strEqb_eq, Nat.leb_le. split.
  - intros ((H1 & H2) & H3). exists (firstn (length f - 12) f). split; [now apply aLabel_any|].
    change [46;109;97;110;105;102;101;115;116;46;103;122] with manifestExt. rewrite <- H2. symmetry. apply firstn_skipn.
  - intros (lab & Hl & ->). rewrite app_length. cbn [length]. replace (length lab + 12 - 12)%nat with (length lab) by lia.
    rewrite firstn_app, skipn_app, Nat.sub_diag, firstn_all, skipn_all. cbn [firstn skipn app]. rewrite app_nil_r.
    split; [|now apply aLabel_any]. split; [lia|reflexivity].
Qed.
Lemma beforeDot_hist lab : aLabel lab -> beforeDot (histFile lab) = lab.
Proof. intros H. apply beforeDot_app, label_nodot, H. Qed.

Lemma histLoop_in min current years : StronglySorted sle (map hyName years) -> forall o,
  In o (histLoop min current years) <->
  exists y, In y years /\
    ((slt (hyName y) (firstn 4 min) /\ o = HRmYear (hyName y)) \/
     (hyName y = firstn 4 min /\ exists lab, aLabel lab /\ In (histFile lab) (hyFiles y) /\ ~ In lab current /\ slt lab min /\
        o = HRmFile (hyName y) (histFile lab))).
Proof.
  induction years as [|y r IH]; intros Hs o; cbn [histLoop]; [split; [intros []|intros (y & [] & _)]|].
  cbn in Hs. inversion Hs as [|? ? Hs' Hf]; subst. rewrite Forall_forall in Hf.
  destruct (strLtb_spec (hyName y) (firstn 4 min)) as [L|L].
  - cbn [In]. rewrite (IH Hs'). split.
    + intros [<-|(z & Hz & H)]; [exists y; auto|exists z; auto].
    + intros (z & [<-|Hz] & H); [|right; exists z; auto]. left. destruct H as [[_ ->]|[E _]]; [reflexivity|]. rewrite E in L. now apply slt_irrefl in L.
  - destruct (strEqb_spec (hyName y) (firstn 4 min)) as [E|E].
    + rewrite in_app_iff, (IH Hs'), in_map_iff. split.
      * intros [(f & <- & Hf')|(z & Hz & H)]; [|exists z; cbn; auto]. exists y. split; [now left|]. right. split; [exact E|].
        apply filter_In in Hf'. destruct Hf' as [H1 H2]. rewrite strLstSortDesc_in in H1. apply filter_In in H1. destruct H1 as [H1 H3].
        apply isHistFile_spec in H3. destruct H3 as (lab & Hl & ->). rewrite (beforeDot_hist lab Hl) in H2.
        apply andb_true_iff in H2. destruct H2 as [H2 H3]. apply strLtb_lt in H3. apply negb_true_iff in H2.
        exists lab. repeat split; auto. intros Hin. apply strLstExists_in in Hin. congruence.
      * intros (z & [<-|Hz] & H); [|right; exists z; auto]. destruct H as [[H _]|(_ & lab & Hl & Hin & Hc & Hlt & ->)]; [contradiction|].
        left. exists (histFile lab). split; [reflexivity|]. apply filter_In. rewrite strLstSortDesc_in, filter_In, (beforeDot_hist lab Hl).
        split; [split; [exact Hin|apply isHistFile_spec; eauto]|]. apply andb_true_iff. split; [|now apply strLtb_lt].
        apply negb_true_iff. destruct (strLstExists current lab) eqn:Ex; [|reflexivity]. apply strLstExists_in in Ex. contradiction.
    + split; [intros []|]. intros (z & Hz & H). assert (Hgt : slt (firstn 4 min) (hyName z)).
      { assert (Hy : slt (firstn 4 min) (hyName y)). { destruct (slt_total (hyName y) (firstn 4 min)) as [K|[K|K]]; [contradiction|contradiction|exact K]. }
        destruct Hz as [<-|Hz]; [exact Hy|]. eapply slt_le_trans; [exact Hy|]. apply Hf. now apply in_map. }
      destruct H as [[H _]|[H _]]; [eapply slt_asym; eauto|rewrite H in Hgt; eapply slt_irrefl; eauto].
Qed.

Lemma sortYears_sorted l : StronglySorted sle (map hyName (sortBy hyName strLeb l)).
Proof.
  assert (H : StronglySorted (fun a b => strLeb (hyName a) (hyName b) = true) (sortBy hyName strLeb l)).
  { apply sortBy_sorted; [apply strLeb_total|apply strLeb_trans]. }
  induction H as [|x l' _ IH Hf]; cbn; constructor; auto. apply Forall_forall. intros z Hz. apply in_map_iff in Hz.
  destruct Hz as (w & <- & Hw). rewrite Forall_forall in Hf. apply strLeb_le. auto.
Qed.

Lemma ops_spec min current listed o :
  In o (removeExpiredHistory (Some min) current listed) <->
  exists y, In y listed /\ isYear (hyName y) = true /\
    ((slt (hyName y) (firstn 4 min) /\ o = HRmYear (hyName y)) \/
     (hyName y = firstn 4 min /\ exists lab, aLabel lab /\ In (histFile lab) (hyFiles y) /\ ~ In lab current /\ slt lab min /\
        o = HRmFile (hyName y) (histFile lab))).
Proof.
  unfold removeExpiredHistory. rewrite histLoop_in by apply sortYears_sorted. split; intros (y & Hy & H).
  - rewrite sortBy_in in Hy. apply filter_In in Hy. exists y. tauto.
  - exists y. rewrite sortBy_in, filter_In. tauto.
Qed.

(** Effect of a list of operations. *)
Lemma apply1_in o years y f : inHistory (histApply1 o years) y f <-> inHistory years y f /\ o <> HRmYear y /\ o <> HRmFile y f.
Proof.
  unfold inHistory. destruct o as [y'|y' f']; cbn [histApply1].
  - split.
    + intros (x & Hx & E & Hf). apply filter_In in Hx. destruct Hx as [Hx Hn]. apply negb_true_iff in Hn.
      split; [eauto|]. split; [|discriminate]. intros Eo. injection Eo as ->. rewrite E, strEqb_refl in Hn. discriminate.
    + intros ((x & Hx & E & Hf) & H1 & _). exists x. split; [|auto]. apply filter_In. split; [exact Hx|]. apply negb_true_iff.
      destruct (strEqb_spec (hyName x) y') as [E'|E']; [|reflexivity]. exfalso. apply H1. congruence.
  - split.
    + intros (x & Hx & E & Hf). apply in_map_iff in Hx. destruct Hx as (x0 & Ex & Hx0).
      destruct (strEqb_spec (hyName x0) y') as [E'|E'].
      * subst x. cbn in E, Hf. apply filter_In in Hf. destruct Hf as [Hf Hn]. apply negb_true_iff in Hn.
        split; [eauto|]. split; [discriminate|]. intros Eo. injection Eo as -> ->. rewrite strEqb_refl in Hn. discriminate.
      * subst x0. split; [eauto|]. split; [discriminate|]. intros Eo. injection Eo as -> ->. congruence.
    + intros ((x & Hx & E & Hf) & _ & H2). exists (if strEqb (hyName x) y' then mkHistYear (hyName x) (filter (fun g => negb (strEqb g f')) (hyFiles x)) else x).
      split; [apply in_map_iff; eauto|]. destruct (strEqb_spec (hyName x) y') as [E'|E']; [|auto]. cbn. split; [exact E|].
      apply filter_In. split; [exact Hf|]. apply negb_true_iff. destruct (strEqb_spec f f') as [->|]; [|reflexivity]. exfalso. apply H2. congruence.
Qed.

Lemma apply_in ops : forall years y f, inHistory (histApply ops years) y f <-> inHistory years y f /\ ~ In (HRmYear y) ops /\ ~ In (HRmFile y f) ops.
Proof.
  unfold histApply. induction ops as [|o ops IH]; intros years y f; cbn [fold_left]; [cbn; tauto|].
  rewrite IH, apply1_in. cbn [In]. intuition congruence.
Qed.

(** A file of the acted on repository that stays. *)
Lemma history_exact min current listed acted y f :
  inHistory (histApply (removeExpiredHistory (Some min) current listed) acted) y f <->
  inHistory acted y f /\
  ~ (exists d, In d listed /\ hyName d = y /\ isYear y = true /\
      (slt y (firstn 4 min) \/ (y = firstn 4 min /\ exists lab, aLabel lab /\ f = histFile lab /\ In f (hyFiles d) /\ ~ In lab current /\ slt lab min))).
Proof.
  rewrite apply_in. split; intros (H0 & H); (split; [exact H0|]).
  - destruct H as [H1 H2]. intros (d & Hd & E & Hy & [L|(E2 & lab & Hl & Ef & Hf & Hc & Hlt)]).
    + apply H1. apply ops_spec. exists d. rewrite E. auto.
    + apply H2. apply ops_spec. exists d. rewrite E. split; [exact Hd|]. split; [exact Hy|]. right. split; [exact E2|]. exists lab. subst f. auto.
  - split; intros Hi; apply ops_spec in Hi; destruct Hi as (d & Hd & Hy & [[L E]|(E & lab & Hl & Hf & Hc & Hlt & Eo)]); try discriminate; apply H;
      exists d.
    + injection E as ->. auto.
    + injection Eo as -> ->. split; [exact Hd|]. split; [reflexivity|]. split; [exact Hy|]. right. split; [exact E|]. exists lab. auto.
Qed.
