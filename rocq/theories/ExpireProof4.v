From Verif Require Import Base Str ExpireModel ExpireSpec ExpireProof ExpireProof2 ExpireProof3.
From Coq Require Import Permutation Sorted.
Open Scope Z_scope.

Lemma backup_dec (a b : backup) : {a = b} + {a <> b}.
Proof. repeat decide equality. Defined.
Lemma op_dec (a b : op) : {a = b} + {a <> b}.
Proof. repeat decide equality. Defined.

(** * Effect of a list of storage operations *)

Definition removes (os : list op) (x : str) : Prop := In (RmManifest x) os \/ In (RmDir x) os.
Definition isRemoval (o : op) : Prop :=
  match o with RmManifest _ | RmManifestCopy _ | LinkLatest _ | RmDir _ => True | _ => False end.

Lemma find_updDir lab f ds x : (forall d, dLabel (f d) = dLabel d) ->
  find (fun d => strEqb (dLabel d) x) (updDir lab f ds) =
  option_map (fun d => if strEqb (dLabel d) lab then f d else d) (find (fun d => strEqb (dLabel d) x) ds).
Proof.
  intros Hf. induction ds as [|d ds IH]; cbn; [reflexivity|].
  destruct (strEqb (dLabel d) lab) eqn:E; [rewrite Hf|]; destruct (strEqb (dLabel d) x); cbn; rewrite ?E; auto.
Qed.

Lemma manifestOf_op s o x :
  manifestOf (applyOp s o) x = match o with
                               | RmManifest y | RmDir y => if strEqb x y then None else manifestOf s x
                               | _ => manifestOf s x
                               end.
Proof.
  destruct o as [y|y|y|y|y|y]; unfold manifestOf, findDir; cbn [applyOp stDirs]; try reflexivity.
  - rewrite find_updDir by reflexivity. destruct (find _ (stDirs s)) as [d|] eqn:E; cbn [option_map]; [|destruct (strEqb x y); reflexivity].
    apply find_some in E. destruct E as [_ E]. apply strEqb_eq in E. rewrite E. destruct (strEqb x y); reflexivity.
  - rewrite find_updDir by reflexivity. destruct (find _ (stDirs s)) as [d|] eqn:E; cbn [option_map]; [|reflexivity].
    destruct (strEqb (dLabel d) y); reflexivity.
  - destruct (strEqb_spec x y) as [->|Hne].
    + destruct (find _ (filter _ (stDirs s))) as [d|] eqn:E; [|reflexivity]. apply find_some in E. destruct E as [H1 H2].
      apply filter_In in H1. destruct H1 as [_ H1]. rewrite H2 in H1. discriminate.
    + induction (stDirs s) as [|d ds IH]; cbn; [reflexivity|].
      destruct (strEqb_spec (dLabel d) y) as [E|E]; cbn.
      * destruct (strEqb_spec (dLabel d) x) as [E2|E2]; [congruence|exact IH].
      * destruct (strEqb (dLabel d) x); [reflexivity|exact IH].
Qed.

Lemma manifestOf_ops os : forall s x,
  (removes os x -> manifestOf (applyOps s os) x = None) /\
  (~ removes os x -> manifestOf (applyOps s os) x = manifestOf s x).
Proof.
  induction os as [|o os IH]; intros s x; cbn [applyOps fold_left].
  - split; [intros [[]|[]]|reflexivity].
  - fold (applyOps (applyOp s o) os). destruct (IH (applyOp s o) x) as [IH1 IH2]. unfold removes in *. cbn [In]. split.
    + intros H. assert ((In (RmManifest x) os \/ In (RmDir x) os) \/ (o = RmManifest x \/ o = RmDir x)) as [H'|H'] by tauto; [auto|].
      destruct (in_dec op_dec (RmManifest x) os) as [Hi|Hi]; [auto|].
      destruct (in_dec op_dec (RmDir x) os) as [Hj|Hj]; [auto|].
      rewrite IH2 by tauto. rewrite manifestOf_op. destruct H' as [->| ->]; now rewrite strEqb_refl.
    + intros H. rewrite IH2 by tauto. rewrite manifestOf_op.
      destruct o as [y|y|y|y|y|y]; try reflexivity; destruct (strEqb_spec x y) as [E|E]; try reflexivity; subst; exfalso; tauto.
Qed.

Lemma removes_dec os x : removes os x \/ ~ removes os x.
Proof.
  unfold removes.
  destruct (in_dec op_dec (RmManifest x) os) as [Hi|Hi]; [auto|].
  destruct (in_dec op_dec (RmDir x) os) as [Hj|Hj]; [auto|tauto].
Qed.

Lemma stInfo_removal os : Forall isRemoval os -> forall s, stInfo (applyOps s os) = stInfo s.
Proof.
  induction 1 as [|o os Ho H IH]; intros s; cbn [applyOps fold_left]; [reflexivity|]. fold (applyOps (applyOp s o) os).
  rewrite IH. destruct o; cbn in *; try reflexivity; contradiction.
Qed.

Lemma goodStore_op s o : goodStore s -> goodStore (applyOp s o).
Proof.
  intros [Hn Hm].
  assert (Hmap : forall lab f, (forall d, dLabel (f d) = dLabel d) -> map dLabel (updDir lab f (stDirs s)) = map dLabel (stDirs s)).
  { intros lab f Hf. unfold updDir. rewrite map_map. apply map_ext. intros d. destruct (strEqb _ _); auto. }
  destruct o as [y|y|y|y|y|y]; cbn; try (split; assumption).
  - split; [cbn; rewrite Hmap; auto|]. cbn. intros d m Hd Hdm. unfold updDir in Hd. apply in_map_iff in Hd. destruct Hd as (d0 & E & Hd0).
    destruct (strEqb (dLabel d0) y); subst d; [cbn in Hdm; discriminate|now apply Hm].
  - split; [cbn; rewrite Hmap; auto|]. cbn. intros d m Hd Hdm. unfold updDir in Hd. apply in_map_iff in Hd. destruct Hd as (d0 & E & Hd0).
    destruct (strEqb (dLabel d0) y); subst d; [cbn in Hdm; cbn; now apply Hm|now apply Hm].
  - split; cbn.
    + clear Hm Hmap. induction (stDirs s) as [|d ds IH]; cbn; [constructor|]. inversion Hn as [|? ? Hd Hn']; subst.
      destruct (negb (strEqb (dLabel d) y)); cbn; [constructor|]; auto. intros Hi. apply Hd. apply in_map_iff in Hi.
      destruct Hi as (e & E & He). apply filter_In in He. rewrite <- E. apply in_map. tauto.
    + intros d m Hd. apply filter_In in Hd. apply Hm. tauto.
Qed.
Lemma goodStore_ops os : forall s, goodStore s -> goodStore (applyOps s os).
Proof.
  induction os as [|o os IH]; intros s H; cbn [applyOps fold_left]; [exact H|]. apply IH. now apply goodStore_op.
Qed.

(** * The removals of an expire run, at every point of it *)

Definition prefixOf {A} (p l : list A) : Prop := exists r, l = p ++ r.

Lemma prefixOf_app {A} (p l1 l2 : list A) : prefixOf p (l1 ++ l2) -> prefixOf p l1 \/ exists q, p = l1 ++ q /\ prefixOf q l2.
Proof.
  revert p; induction l1 as [|a l1 IH]; intros p [r E]; cbn in *.
  - right. exists p. split; [reflexivity|]. exists r. exact E.
  - destruct p as [|b p]; [left; exists (a :: l1); reflexivity|]. cbn in E. injection E as <- E.
    destruct (IH p) as [[r' E']|(q & E' & Hq)]; [exists r; exact E| |].
    + left. exists r'. cbn. now rewrite <- E'.
    + right. exists q. cbn. rewrite E'. auto.
Qed.

Lemma prefixOf_refl {A} (l : list A) : prefixOf l l.
Proof. exists []. symmetry. apply app_nil_r. Qed.

Lemma removes_app o1 o2 x : removes (o1 ++ o2) x <-> removes o1 x \/ removes o2 x.
Proof. unfold removes. rewrite !in_app_iff. tauto. Qed.

(** [traceOk l os l']: the operations remove manifests so that at any point whatever depends on a removed backup was removed before,
    and at the end exactly the entries that are not in [l'] are removed. *)
Definition traceOk (l : list backup) (os : list op) (l' : list backup) : Prop :=
  Forall isRemoval os /\
  (forall p, prefixOf p os -> forall x b, removes p x -> In b l -> dependsOn l (bkLabel b) x -> removes p (bkLabel b)) /\
  (forall b, In b l -> (removes os (bkLabel b) <-> ~ In b l')).

Lemma traceOk_nil l : traceOk l [] l.
Proof.
  split; [constructor|]. split.
  - intros p [r E]. destruct p; [|discriminate]. intros x b [[]|[]].
  - intros b Hb. split; [intros [[]|[]]|intros H; contradiction].
Qed.

Lemma traceOk_app l o1 l1 o2 l2 P : survives l l1 P -> (forall b, In b l2 -> In b l1) ->
  traceOk l o1 l1 -> traceOk l1 o2 l2 -> traceOk l (o1 ++ o2) l2.
Proof.
  intros Hsv Hsub (A1 & A2 & A3) (B1 & B2 & B3). split; [apply Forall_app; auto|]. split.
  - intros p Hp x b Hx Hb Hd. destruct (prefixOf_app _ _ _ Hp) as [Hp'|(q & -> & Hq)]; [eauto|].
    apply removes_app. assert (In b l1 \/ ~ In b l1) as [Hb1|Hb1].
    { destruct (in_dec backup_dec b l1); auto. }
    + right. apply removes_app in Hx. destruct Hx as [Hx|Hx].
      * exfalso. assert (removes o1 (bkLabel b)) as H by (eapply A2; eauto using prefixOf_refl). apply A3 in H; auto.
      * eapply B2; eauto. apply (dependsOn_survives l l1 P); auto. now apply Hsv in Hb1.
    + left. now apply A3.
  - intros b Hb. rewrite removes_app. split.
    + intros [H|H] Hb2.
      * apply A3 in H; auto.
      * apply B3 in H; auto.
    + intros Hn. destruct (in_dec backup_dec b l1) as [H|H].
      * right. now apply B3.
      * left. now apply A3.
Qed.

Definition rmOps (labs : list str) : list op := flat_map (fun x => [RmManifest x; RmManifestCopy x]) labs.

Lemma rmOps_removes labs x : removes (rmOps labs) x <-> In x labs.
Proof.
  unfold removes, rmOps. rewrite !in_flat_map. split.
  - intros [(y & Hy & [E|[E|[]]])|(y & Hy & [E|[E|[]]])]; try discriminate. now injection E as ->.
  - intros H. left. exists x. split; [exact H|now left].
Qed.

Lemma rmOps_prefix labs : forall p, prefixOf p (rmOps labs) -> exists pre, prefixOf pre labs /\ forall x, removes p x <-> In x pre.
Proof.
  induction labs as [|a labs IH]; intros p [r E]; cbn in E.
  - exists []. split; [exists []; reflexivity|]. destruct p; [|discriminate]. intros x. unfold removes. cbn. tauto.
  - destruct p as [|o1 p]; [exists []; split; [exists (a :: labs); reflexivity|]; intros x; unfold removes; cbn; tauto|].
    cbn in E. injection E as <- E. destruct p as [|o2 p].
    { exists [a]. split; [exists labs; reflexivity|]. intros x. unfold removes. cbn. split; [intros [[H|[]]|[H|[]]]|]; [|discriminate|].
      - injection H as ->. auto.
      - intros [->|[]]. auto. }
    cbn in E. injection E as <- E. destruct (IH p (ex_intro _ r E)) as (pre & [r' Ep] & Hpre).
    exists (a :: pre). split; [exists r'; cbn; now rewrite <- Ep|]. intros x. cbn [In]. rewrite <- (Hpre x). unfold removes. cbn [In]. split.
    + intros [[H|[H|H]]|[H|[H|H]]]; try discriminate; auto. injection H as ->. auto.
    + intros [->|[H|H]]; auto.
Qed.

Lemma prefix_desc (labs pre : list str) x y : StronglySorted (fun a b => sle b a) labs -> prefixOf pre labs ->
  In x pre -> In y labs -> slt x y -> In y pre.
Proof.
  intros Hs [r ->] Hx Hy Hlt. apply in_app_or in Hy. destruct Hy as [Hy|Hy]; [exact Hy|].
  apply StronglySorted_app_inv in Hs. destruct Hs as (_ & _ & Hs). specialize (Hs x y Hx Hy).
  exfalso. apply sle_not_lt in Hs. contradiction.
Qed.

Lemma expireBackup_trace l lab l' o e : ordered l -> expireBackup false l lab = (l', o, e) -> traceOk l o l'.
Proof.
  intros Ho H. pose proof (expireBackup_in _ _ _ _ _ _ Ho H) as Hin. unfold expireBackup in H. injection H as _ <- _.
  fold (rmOps (strLstSortDesc (dependentList l lab))). set (dl := strLstSortDesc (dependentList l lab)).
  assert (Hdl : forall x, In x dl <-> x = lab \/ (In x (map bkLabel l) /\ dependsOn l x lab)).
  { intros x. unfold dl. rewrite strLstSortDesc_in. now apply dependentList_in. }
  split; [|split].
  - unfold rmOps. apply Forall_flat_map. apply Forall_forall. intros x _. repeat constructor.
  - intros p Hp x b Hx Hb Hd. destruct (rmOps_prefix _ _ Hp) as (pre & Hpre & Hrm). apply Hrm in Hx. apply Hrm.
    pose proof (dependsOn_le l _ _ Ho Hd) as Hle. apply sle_lt_eq in Hle. destruct Hle as [Hlt| <-]; [|exact Hx].
    eapply prefix_desc; [apply strLstSortDesc_sorted|exact Hpre|exact Hx| |exact Hlt].
    apply Hdl. right. split; [now apply in_map|].
    assert (Hxd : In x dl) by (destruct Hpre as [r ->]; apply in_or_app; now left).
    apply Hdl in Hxd. destruct Hxd as [->|[_ Hxd]]; [exact Hd|]. eapply dependsOn_trans; eauto.
  - intros b Hb. rewrite rmOps_removes, Hdl, (Hin b). split.
    + intros [->|[_ Hd]] [_ Hn]; apply Hn; [constructor|exact Hd].
    + intros Hn. right. split; [now apply in_map|].
      destruct (strLstExists_spec (dependentList l lab) (bkLabel b)) as [Hi|Hi].
      * now apply dependentList_in' in Hi.
      * exfalso. apply Hn. split; [exact Hb|]. intros Hd. apply Hi. now apply dependentList_in'.
Qed.

Lemma expireList_trace : forall labs l l' o e, ordered l -> expireList false l labs = (l', o, e) -> traceOk l o l'.
Proof.
  induction labs as [|x r IH]; intros l l' o e Ho H; cbn [expireList] in H.
  - injection H as <- <- _. apply traceOk_nil.
  - destruct (expireBackup false l x) as [[l1 o1] e1] eqn:E1. destruct (expireList false l1 r) as [[l2 o2] e2] eqn:E2.
    injection H as <- <- _. pose proof (expireBackup_survives _ _ _ _ _ _ Ho E1) as Hs.
    destruct (expireBackup_list _ _ _ _ _ _ Ho E1) as (f & Ef & _).
    assert (Ho1 : ordered l1) by (subst l1; now apply ordered_filter).
    destruct (expireList_ok _ _ _ _ _ _ Ho1 E2) as [S2 _].
    eapply traceOk_app; [exact Hs|intros b; now apply sublist_in|eapply expireBackup_trace; eauto|eapply IH; eauto].
Qed.

Lemma expireFull_trace n l l' o e : ordered l -> expireFull false n l = (l', o, e) -> traceOk l o l'.
Proof.
  intros Ho H. unfold expireFull in H. destruct (0 <? n)%nat; [|injection H as <- <- _; apply traceOk_nil].
  destruct (n <? _)%nat; [|injection H as <- <- _; apply traceOk_nil]. eapply expireList_trace; eauto.
Qed.
Lemma expireDiff_trace n l l' o e : ordered l -> expireDiff false n l = (l', o, e) -> traceOk l o l'.
Proof.
  intros Ho H. unfold expireDiff in H. destruct (0 <? n)%nat; [|injection H as <- <- _; apply traceOk_nil].
  destruct (n <? _)%nat; [|injection H as <- <- _; apply traceOk_nil]. eapply expireList_trace; eauto.
Qed.

Lemma timeLoop_trace met : forall fuel l l' o e n, ordered l -> timeLoop fuel false l met = Ok ((l', o, e), n) ->
  traceOk l o l' /\ sublist l' l /\ exists P, survives l l' P.
Proof.
  assert (Hid : forall l, traceOk l [] l /\ sublist l l /\ exists P, survives l l P).
  { intros l. split; [apply traceOk_nil|]. split; [apply sublist_refl|]. eexists. apply survives_refl. }
  induction fuel as [|fuel IH]; intros l l' o e n Ho H; destruct l as [|b l]; cbn [timeLoop] in H; try discriminate.
  - destruct (strEqb (bkLabel b) met); [|discriminate]. injection H as <- <- _ _. apply Hid.
  - destruct (strEqb (bkLabel b) met). { injection H as <- <- _ _. apply Hid. }
    destruct (expireBackup false (b :: l) (bkLabel b)) as [[l1 o1] e1] eqn:E1.
    destruct (timeLoop fuel false l1 met) as [[[[l2 o2] e2] n2]|k|] eqn:E2; try discriminate. cbn [bind] in H. injection H as <- <- _ _.
    pose proof (expireBackup_survives _ _ _ _ _ _ Ho E1) as Hs.
    destruct (expireBackup_list _ _ _ _ _ _ Ho E1) as (f & Ef & _).
    assert (S1 : sublist l1 (b :: l)) by (exists f; exact Ef).
    destruct (IH _ _ _ _ _ (sublist_ordered _ _ S1 Ho) E2) as (T2 & S2 & (P2 & V2)).
    split; [|split; [eapply sublist_trans; eauto|eexists; eapply survives_trans; eauto]].
    eapply traceOk_app; [exact Hs|intros c; now apply sublist_in|eapply expireBackup_trace; eauto|exact T2].
Qed.

Lemma traceOk_link l o l' z : traceOk l o l' -> traceOk l (o ++ [LinkLatest z]) l'.
Proof.
  intros (A & B & C). assert (Hr : forall x, removes (o ++ [LinkLatest z]) x <-> removes o x).
  { intros x. rewrite removes_app. unfold removes at 2. cbn. split; [|auto]. intros [H|[[H|[]]|[H|[]]]]; auto; discriminate. }
  split; [apply Forall_app; split; [exact A|repeat constructor]|]. split.
  - intros p Hp x b Hx Hb Hd. destruct (prefixOf_app _ _ _ Hp) as [Hp'|(q & -> & Hq)]; [eauto|].
    apply removes_app. left. eapply B; [apply prefixOf_refl| |exact Hb|exact Hd].
    apply removes_app in Hx. destruct Hx as [Hx|Hx]; [exact Hx|]. destruct Hq as [r E]. destruct q as [|q1 q]; [destruct Hx as [[]|[]]|].
    cbn in E. injection E as <- E. destruct q; [|discriminate]. destruct Hx as [[H|[]]|[H|[]]]; discriminate.
  - intros b Hb. rewrite Hr. now apply C.
Qed.

Lemma expireInfo_trace c l l' o e ar : goodHistory l -> cDry c = false -> expireInfo c l = Ok ((l', o, e), ar) ->
  traceOk l o l' /\ (e = [] -> l' = l).
Proof.
  intros Hg Hdry H. pose proof Hg as (Ho & _). unfold expireInfo in H. rewrite Hdry in H.
  assert (Hne : forall d l x l' o e, expireBackup d l x = (l', o, e) -> e <> []).
  { intros d l0 x l0' o0 e0 E0 Ee. unfold expireBackup in E0. injection E0 as _ _ E0. rewrite Ee in E0.
    assert (In x []) as []. rewrite <- E0. rewrite strLstSortAsc_in, strLstSortDesc_in. unfold dependentList.
    assert (forall bs acc, In x acc -> In x (depLoop bs acc)) as Hacc.
    { induction bs as [|b bs IHb]; intros acc Ha; cbn; [exact Ha|]. apply IHb. destruct (bkPrior b); [|exact Ha].
      destruct (strLstExists acc s); [apply in_or_app; now left|exact Ha]. }
    apply Hacc. now left. }
  assert (HneL : forall d labs l l' o e, expireList d l labs = (l', o, e) -> e = [] -> l' = l).
  { intros d labs. induction labs as [|x r IH]; intros l0 l0' o0 e0 E Ee; cbn [expireList] in E; [now injection E as <- _ _|].
    destruct (expireBackup d l0 x) as [[a b] ee] eqn:E1. destruct (expireList d a r) as [[a2 b2] e2] eqn:E2.
    injection E as _ _ E. rewrite <- E in Ee. apply app_eq_nil in Ee. destruct Ee as [Ee _]. exfalso. eapply Hne; eauto. }
  destruct (cSet c) as [lab|].
  - destruct (labelExists_spec l lab) as [Hin|Hin]; [|injection H as <- <- <- _; split; [apply traceOk_nil|auto]].
    destruct (expireAdhoc false l lab) as [[[l1 o1] e1]|k|] eqn:E; cbn [bind] in H; try discriminate. injection H as <- <- <- _.
    unfold expireAdhoc in E. destruct (strLstSortDesc (labelList labelFull l)) as [|f0 rest]; [discriminate|].
    match type of E with context [bind ?r _] => destruct r as [[|]|k|] end; cbn [bind] in E; try discriminate.
    destruct (rev l) as [|latest rl]; [discriminate|].
    destruct (expireBackup false l lab) as [[l2 o2] e2] eqn:E2. pose proof (expireBackup_trace _ _ _ _ _ Ho E2) as Ht.
    assert (He2 : e2 = [] -> l2 = l) by (intros ->; exfalso; eapply Hne; eauto).
    destruct (labelExists l2 (bkLabel latest)); [injection E as <- <- <-; auto|].
    destruct (rev l2) as [|z rz]; [discriminate|]. injection E as <- <- <-. split; [now apply traceOk_link|exact He2].
  - set (ft := length (labelList labelFull l)) in *. set (eff := cOldest c && (1 <? ft)%nat) in *.
    match type of H with context [bind ?r _] => destruct r as [[[[l1 o1] e1] ar1]|k|] eqn:E end; cbn [bind] in H; try discriminate.
    destruct (expireDiff false (ret0 (cRetDiff c)) l1) as [[l2 o2] e2] eqn:E2. injection H as <- <- <- _.
    assert (Hfirst : traceOk l o1 l1 /\ goodHistory l1 /\ sublist l1 l /\ (exists P, survives l l1 P) /\ (e1 = [] -> l1 = l)).
    { assert (Hid : traceOk l [] l /\ goodHistory l /\ sublist l l /\ (exists P, survives l l P) /\ (@nil str = [] -> l = l)).
      { split; [apply traceOk_nil|]. split; [exact Hg|]. split; [apply sublist_refl|]. split; [eexists; apply survives_refl|auto]. }
      destruct (if eff then false else cTime c).
      - destruct (if eff then Some (ft - 1)%nat else cRetFull c) as [d|]; [|injection E as <- <- <- _; exact Hid].
        destruct (expireTime_spec false (cNow c - Z.of_nat d * 86400) l Hg) as (a1 & a2 & a3 & a4 & E3 & G1 & G2 & _).
        rewrite E3 in E. injection E as -> -> -> ->. unfold expireTime in E3.
        destruct (findMet l _ _) as [[m|]|k|]; cbn [bind] in E3; try discriminate; [|injection E3 as <- <- <- _; exact Hid].
        destruct (timeLoop (S (length l)) false l m) as [[[[x1 x2] x3] x4]|k|] eqn:E4; cbn [bind] in E3; try discriminate.
        injection E3 as <- <- <- _. destruct (timeLoop_trace _ _ _ _ _ _ _ Ho E4) as (T1 & T2 & T3).
        split; [exact T1|]. split; [exact G1|]. split; [exact T2|]. split; [exact T3|].
        intros ->. cbn [timeLoop] in E4. destruct l as [|b0 l0]; [discriminate|].
        destruct (strEqb (bkLabel b0) m); [now injection E4 as <- _ _|].
        destruct (expireBackup false (b0 :: l0) (bkLabel b0)) as [[y1 y2] y3] eqn:E5.
        destruct (timeLoop (length (b0 :: l0)) false y1 m) as [[[[z1 z2] z3] z4]|k|]; cbn [bind] in E4; try discriminate.
        injection E4 as _ _ E4 _. apply app_eq_nil in E4. destruct E4 as [E4 _]. exfalso. eapply Hne; eauto.
      - injection E as E _. destruct (expireFull_survives _ _ _ _ _ _ Hg E) as (G1 & G2 & G3).
        split; [eapply expireFull_trace; eauto|]. split; [exact G1|]. split; [exact G2|]. split; [exact G3|].
        intros ->. unfold expireFull in E. cbn zeta in E. repeat match type of E with (if ?c then _ else _) = _ => destruct c; [|now injection E as <- _] end. eapply HneL; eauto. }
    destruct Hfirst as (T1 & G1 & S1 & (P & V1) & N1). destruct (expireDiff_survives _ _ _ _ _ _ G1 E2) as (G2 & S2 & _).
    split.
    + eapply traceOk_app; [exact V1|intros b; now apply sublist_in|exact T1|]. eapply expireDiff_trace; [apply G1|exact E2].
    + intros Ee. apply app_eq_nil in Ee. destruct Ee as [-> ->]. rewrite <- (N1 eq_refl).
      unfold expireDiff in E2. cbn zeta in E2. repeat match type of E2 with (if ?c then _ else _) = _ => destruct c; [|now injection E2 as <- _] end. eapply HneL; eauto.
Qed.
