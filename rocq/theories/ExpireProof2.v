From Verif Require Import Base Str ExpireModel ExpireSpec ExpireProof.
From Coq Require Import Permutation Sorted.
Open Scope Z_scope.

(** * Time based retention *)

Lemma filter_length_le {A} (f : A -> bool) l : (length (filter f l) <= length l)%nat.
Proof. induction l as [|x l IH]; cbn; [lia|]. destruct (f x); cbn; lia. Qed.


Lemma fullLabels_sorted l : ordered l -> ssorted (fullLabels l).
Proof. intros [H _]. now apply StronglySorted_filter. Qed.

Lemma expireBackup_full dry l f l' o e : goodHistory l -> labelFull f = true -> expireBackup dry l f = (l', o, e) ->
  goodHistory l' /\ sublist l' l /\ (forall b, In b l' <-> In b l /\ fullOf (bkLabel b) <> f).
Proof.
  intros Hg Hf H. pose proof Hg as (Ho & _).
  pose proof (expireBackup_survives _ _ _ _ _ _ Ho H) as Hs.
  destruct (expireBackup_list _ _ _ _ _ _ Ho H) as (g & Eg & _).
  assert (Hsub : sublist l' l) by (exists g; exact Eg).
  split; [eapply survives_good; eauto|]. split; [exact Hsub|].
  intros b. rewrite (expireBackup_in _ _ _ _ _ _ Ho H b). split; intros [H1 H2]; split; auto; intros H3; apply H2;
    now apply (dependsOn_full l b f Hg H1 Hf).
Qed.

Lemma first_full b l : goodHistory (b :: l) -> labelFull (bkLabel b) = true.
Proof.
  intros Hg. pose proof Hg as ((Hs & _) & _ & Hw). destruct (reaches_full (b :: l) b Hg (or_introl eq_refl)) as [_ (f & Hf & Ef)].
  assert (Hff : labelFull (fullOf (bkLabel b)) = true) by (eapply wellLabelled_fullOf; [exact Hw|now left]).
  destruct Hf as [<-|Hf]; [now rewrite Ef|].
  exfalso. cbn in Hs. inversion Hs as [|? ? _ Hlt]; subst. rewrite Forall_forall in Hlt.
  assert (H : slt (bkLabel b) (bkLabel f)) by (apply Hlt; now apply in_map). rewrite Ef in H.
  apply sle_not_lt in H; [contradiction|]. apply prefix_le_self.
Qed.

Lemma first_least b l c : goodHistory (b :: l) -> In c (b :: l) -> sle (bkLabel b) (fullOf (bkLabel c)).
Proof.
  intros Hg Hc. destruct (reaches_full _ c Hg Hc) as [_ (f & Hf & <-)]. pose proof Hg as ((Hs & _) & _).
  cbn in Hs. inversion Hs as [|? ? _ Hlt]; subst. rewrite Forall_forall in Hlt.
  destruct Hf as [<-|Hf]; [apply sle_refl|]. apply slt_le, Hlt. now apply in_map.
Qed.

Lemma timeLoop_spec dry met : labelFull met = true -> forall fuel l, goodHistory l -> (length l <= fuel)%nat ->
  In met (map bkLabel l) ->
  exists l' o e n, timeLoop fuel dry l met = Ok ((l', o, e), n) /\ goodHistory l' /\ sublist l' l /\
    (forall b, In b l' <-> In b l /\ sle met (fullOf (bkLabel b))) /\
    length (fullLabels l) = (n + length (fullLabels l'))%nat.
Proof.
  intros Hmf. induction fuel as [|fuel IH]; intros l Hg Hlen Hmet.
  { destruct l; [destruct Hmet|cbn in Hlen; lia]. }
  destruct l as [|b l]; [destruct Hmet|]. cbn [timeLoop]. destruct (strEqb_spec (bkLabel b) met) as [E|E].
  - exists (b :: l), [], [], O. repeat split; auto; try apply Hg; try apply sublist_refl.
    + rewrite <- E. now apply (first_least b l).
    + tauto.
  - destruct (expireBackup dry (b :: l) (bkLabel b)) as [[l1 o1] e1] eqn:E1.
    pose proof (first_full _ _ Hg) as Hbf.
    destruct (expireBackup_full _ _ _ _ _ _ Hg Hbf E1) as (Hg1 & Hsub1 & Hin1).
    assert (Hmet1 : In met (map bkLabel l1)).
    { apply in_map_iff in Hmet. destruct Hmet as (c & Ec & Hc). apply in_map_iff. exists c. split; [exact Ec|].
      apply Hin1. split; [exact Hc|]. rewrite Ec, fullOf_full by assumption. congruence. }
    assert (Hlen1 : (length l1 <= fuel)%nat).
    { pose proof Hsub1 as [f Ef]. cbn [filter] in Ef. destruct (f b) eqn:Eb.
      - exfalso. assert (In b l1) as Hb by (rewrite Ef; now left). apply Hin1 in Hb. destruct Hb as [_ Hb].
        apply Hb, fullOf_full, Hbf.
      - rewrite Ef. pose proof (filter_length_le f l). cbn in Hlen. lia. }
    destruct (IH l1 Hg1 Hlen1 Hmet1) as (l' & o & e & n & Et & Hg' & Hsub' & Hin' & Hcnt).
    rewrite Et. cbn [bind]. exists l', (o1 ++ o), (e1 ++ e), (S n). split; [reflexivity|]. split; [exact Hg'|].
    split; [eapply sublist_trans; eauto|].
    assert (Hblt : slt (bkLabel b) met).
    { apply in_map_iff in Hmet. destruct Hmet as (c & Ec & Hc). pose proof (first_least b l c Hg Hc) as Hle.
      rewrite Ec, fullOf_full in Hle by assumption. apply sle_lt_eq in Hle. destruct Hle as [Hle|Hle]; [exact Hle|contradiction]. }
    split.
    + intros c. rewrite Hin', Hin1. split; [tauto|]. intros [Hc Hle]. repeat split; auto. intros Ec. rewrite Ec in Hle.
      apply sle_not_lt in Hle. contradiction.
    + assert (EE : fullLabels (b :: l) = bkLabel b :: fullLabels l1).
      { assert (Hss : ssorted (fullLabels (b :: l))) by (apply fullLabels_sorted, Hg).
        apply ssorted_unique; [exact Hss| |].
        - constructor; [apply fullLabels_sorted, Hg1|]. apply Forall_forall. intros f Hf. apply in_fullLabels in Hf.
          destruct Hf as (c & Hc & Ec & Hcf). apply Hin1 in Hc. destruct Hc as [Hc Hne].
          pose proof (first_least b l c Hg Hc) as Hle. rewrite Ec, (fullOf_full f Hcf) in *.
          apply sle_lt_eq in Hle. destruct Hle; [assumption|congruence].
        - intros f. cbn [In]. rewrite !in_fullLabels. split.
          + intros (c & Hc & Ec & Hcf). destruct (str_dec (bkLabel b) f) as [Eb|Eb]; [now left|right].
            exists c. split; [|auto]. apply Hin1. split; [exact Hc|]. rewrite Ec, fullOf_full by assumption. congruence.
          + intros [<-|(c & Hc & Ec & Hcf)].
            * exists b. split; [now left|]. auto.
            * exists c. apply Hin1 in Hc. tauto. }
      rewrite EE. cbn [length]. lia.
Qed.

Lemma findMet_spec l minTs : goodHistory l -> forall labs,
  StronglySorted (fun a b => slt b a) labs -> (forall x, In x labs -> exists b, In b l /\ bkLabel b = x) ->
  exists m, findMet l minTs labs = Ok m /\
    match m with
    | Some x => In x labs /\ (exists g, In g l /\ bkLabel g = x /\ bkTimeStop g < minTs) /\
                (forall g, In g l -> In (bkLabel g) labs -> bkTimeStop g < minTs -> sle (bkLabel g) x)
    | None => forall g, In g l -> In (bkLabel g) labs -> ~ bkTimeStop g < minTs
    end.
Proof.
  intros Hg. pose proof Hg as (Ho & _). induction labs as [|x r IH]; intros Hs Hall; cbn [findMet].
  { exists None. split; [reflexivity|]. intros g _ []. }
  inversion Hs as [|? ? Hs' Hf]; subst. rewrite Forall_forall in Hf.
  destruct (Hall x (or_introl eq_refl)) as (b & Hb & <-). rewrite dataByLabel_in by (auto using NoDup_labels).
  destruct (Z.ltb_spec (bkTimeStop b) minTs) as [Hlt|Hge].
  - exists (Some (bkLabel b)). split; [reflexivity|]. split; [now left|]. split; [eauto|].
    intros g Hgl [E|Hin] _; [rewrite <- E; apply sle_refl|]. apply slt_le. now apply Hf.
  - destruct IH as (m & Em & Hm); [exact Hs'|intros y Hy; apply Hall; now right|].
    exists m. split; [exact Em|].
    assert (Hskip : forall g, In g l -> bkLabel b = bkLabel g -> bkTimeStop g < minTs -> False).
    { intros g Hgl E Ht. assert (b = g) by (eapply label_inj; eauto using NoDup_labels). subst g. lia. }
    destruct m as [y|].
    + destruct Hm as (H1 & H2 & H3). split; [now right|]. split; [exact H2|].
      intros g Hgl [E|Hin] Ht; [exfalso; eauto|]. now apply H3.
    + intros g Hgl [E|Hin] Ht; [eauto|]. eapply Hm; eauto.
Qed.

Lemma expireTime_spec dry minTs l : goodHistory l ->
  exists l' o e ar, expireTime dry minTs l = Ok ((l', o, e), ar) /\ goodHistory l' /\ sublist l' l /\
    (forall b, In b l' <-> In b l /\
       ~ exists g, In g l /\ labelFull (bkLabel g) = true /\ bkTimeStop g < minTs /\ slt (fullOf (bkLabel b)) (bkLabel g)) /\
    ((exists g, In g l /\ labelFull (bkLabel g) = true /\ bkTimeStop g < minTs) -> ar = Some (length (fullLabels l'))) /\
    (~ (exists g, In g l /\ labelFull (bkLabel g) = true /\ bkTimeStop g < minTs) -> ar = None).
Proof.
  intros Hg. pose proof Hg as (Ho & _). unfold expireTime. change (labelList labelFull l) with (fullLabels l).
  rewrite strLstSortAsc_id by now apply fullLabels_sorted.
  destruct (findMet_spec l minTs Hg (rev (fullLabels l))) as (m & Em & Hm).
  { apply StronglySorted_rev. now apply fullLabels_sorted. }
  { intros x Hx. rewrite <- in_rev in Hx. apply in_fullLabels in Hx. destruct Hx as (b & Hb & E & _). eauto. }
  rewrite Em. cbn [bind]. destruct m as [x|].
  - destruct Hm as (Hx & (g & Hgl & Eg & Hgt) & Hmax). rewrite <- in_rev in Hx.
    pose proof Hx as Hx'. apply in_fullLabels in Hx'. destruct Hx' as (_ & _ & _ & Hxf).
    destruct (timeLoop_spec dry x Hxf (S (length l)) l Hg) as (l' & o & e & n & Et & Hg' & Hsub & Hin & Hcnt).
    { lia. } { rewrite <- Eg. now apply in_map. }
    rewrite Et. cbn [bind]. exists l', o, e, (Some (length (fullLabels l) - n)%nat).
    split; [reflexivity|]. split; [exact Hg'|]. split; [exact Hsub|]. split; [|split].
    + intros b. rewrite Hin. split; intros [Hb H]; split; auto.
      * intros (h & Hh & Hhf & Hht & Hlt).
        assert (Hle : sle (bkLabel h) x).
        { apply Hmax; auto. rewrite <- in_rev. apply in_fullLabels. eauto. }
        apply sle_not_lt in H. apply H. eapply slt_le_trans; eauto.
      * apply sle_not_lt. intros Hlt. apply H. exists g. rewrite Eg. auto.
    + intros _. f_equal. lia.
    + intros Hno. exfalso. apply Hno. exists g. rewrite Eg. auto.
  - exists l, [], [], None. split; [reflexivity|]. split; [exact Hg|]. split; [apply sublist_refl|].
    assert (Hno : ~ exists g, In g l /\ labelFull (bkLabel g) = true /\ bkTimeStop g < minTs).
    { intros (g & Hgl & Hgf & Hgt). eapply Hm; eauto. rewrite <- in_rev. apply in_fullLabels. eauto. }
    split; [|split]; [|tauto|tauto].
    intros b. split; [|tauto]. intros Hb. split; [exact Hb|]. intros (g & Hgl & Hgf & Hgt & _). apply Hno. eauto.
Qed.

(** * Adhoc *)

Lemma rev_cons_last {A} (l : list A) x r : rev l = x :: r -> l = rev r ++ [x].
Proof. intros H. rewrite <- (rev_involutive l), H. reflexivity. Qed.

Lemma expireAdhoc_spec dry l b : goodHistory l -> In b l ->
  (lastFullOfCluster l b -> expireAdhoc dry l (bkLabel b) = Err EBackupSetInvalid) /\
  (~ lastFullOfCluster l b ->
     exists l' o e, expireAdhoc dry l (bkLabel b) = Ok (l', o, e) /\ goodHistory l' /\ sublist l' l /\
       (forall c, In c l' <-> In c l /\ ~ dependsOn l (bkLabel c) (bkLabel b)) /\
       (forall f, newestFull l f -> exists g, In g l' /\ labelFull (bkLabel g) = true /\ bkPgId g = bkPgId f)).
Proof.
  intros Hg Hb. pose proof Hg as (Ho & Hc & Hw). unfold expireAdhoc.
  change (labelList labelFull l) with (fullLabels l).
  rewrite strLstSortDesc_rev by now apply fullLabels_sorted.
  pose proof (fullLabels_sorted l Ho) as Hfs. apply StronglySorted_rev in Hfs.
  assert (Hfin : forall x, In x (rev (fullLabels l)) <-> exists c, In c l /\ bkLabel c = x /\ labelFull x = true).
  { intros x. rewrite <- in_rev. apply in_fullLabels. }
  destruct (rev (fullLabels l)) as [|f0 rest] eqn:Erev.
  { exfalso. destruct (reaches_full l b Hg Hb) as [_ (f & Hf & Ef)].
    apply (proj2 (Hfin (bkLabel f))). exists f. repeat split; auto. rewrite Ef. eapply wellLabelled_fullOf; eauto. }
  inversion Hfs as [|? ? Hfs' Hf0]; subst. rewrite Forall_forall in Hf0.
  destruct (proj1 (Hfin f0) (or_introl eq_refl)) as (b0 & Hb0 & E0 & Hff0).
  assert (Hnew : newestFull l b0).
  { split; [exact Hb0|]. split; [now rewrite E0|]. intros c Hcl Hcf. rewrite E0.
    destruct (proj2 (Hfin (bkLabel c))) as [E|Hin]; [eauto|rewrite E; apply sle_refl|]. apply slt_le. now apply Hf0. }
  assert (Hnewu : forall f, newestFull l f -> f = b0).
  { intros f (Hf1 & Hf2 & Hf3). eapply label_inj; eauto using NoDup_labels. apply sle_antisym.
    - now apply Hnew.
    - apply Hf3; [exact Hb0|now rewrite E0]. }
  (* the part after the guard *)
  assert (Hrest : (exists g, In g l /\ labelFull (bkLabel g) = true /\ bkPgId g = bkPgId b0 /\ bkLabel g <> bkLabel b) ->
    exists l' o e,
     (match rev l with
        | [] => Err EAssert
        | latest :: _ =>
            let '(l1, o1, e1) := expireBackup dry l (bkLabel b) in
            if labelExists l1 (bkLabel latest) then Ok (l1, o1, e1)
            else
              if dry then Ok (l1, o1, e1)
              else
                match rev l1 with
                | [] => Err EAssert
                | b :: _ => Ok (l1, o1 ++ [LinkLatest (bkLabel b)], e1)
                end
        end) = Ok (l', o, e) /\ goodHistory l' /\ sublist l' l /\
       (forall c, In c l' <-> In c l /\ ~ dependsOn l (bkLabel c) (bkLabel b)) /\
       (forall f, newestFull l f -> exists g, In g l' /\ labelFull (bkLabel g) = true /\ bkPgId g = bkPgId f)).
  { intros (g & Hgl & Hgf & Hgp & Hgn).
    destruct (rev l) as [|latest rl] eqn:Erl. { rewrite <- (rev_involutive l), Erl in Hb. destruct Hb. }
    destruct (expireBackup dry l (bkLabel b)) as [[l1 o1] e1] eqn:E1.
    pose proof (expireBackup_survives _ _ _ _ _ _ Ho E1) as Hs.
    pose proof (expireBackup_in _ _ _ _ _ _ Ho E1) as Hin.
    destruct (expireBackup_list _ _ _ _ _ _ Ho E1) as (ff & Eff & _).
    assert (Hsub : sublist l1 l) by (exists ff; exact Eff).
    assert (Hg1 : goodHistory l1) by (eapply survives_good; eauto).
    assert (Hgl1 : In g l1).
    { apply Hin. split; [exact Hgl|]. intros Hd.
      destruct (dependsOn_inv l g _ Ho Hgl Hd) as [E|(p & Ep & _)]; [contradiction|].
      assert (bkPrior g = None) by (eapply wellLabelled_full; eauto). congruence. }
    assert (Hlast : forall f, newestFull l f -> exists g, In g l1 /\ labelFull (bkLabel g) = true /\ bkPgId g = bkPgId f).
    { intros f Hf. apply Hnewu in Hf. subst f. eauto. }
    destruct (labelExists l1 (bkLabel latest)); [exists l1, o1, e1; auto|].
    destruct dry; [exists l1, o1, e1; auto|].
    destruct (rev l1) as [|z rz] eqn:Erz. { rewrite <- (rev_involutive l1), Erz in Hgl1. destruct Hgl1. }
    exists l1, (o1 ++ [LinkLatest (bkLabel z)]), e1. auto 10. }
  destruct (strEqb_spec f0 (bkLabel b)) as [E|E].
  - assert (b = b0) by (eapply label_inj; eauto using NoDup_labels; congruence). subst b0.
    destruct rest as [|f1 rest].
    + cbn [bind]. split; [reflexivity|]. intros Hn. exfalso. apply Hn. split; [exact Hnew|].
      intros c (Hcl & Hcf & Hcn & _). exfalso. destruct (proj2 (Hfin (bkLabel c))) as [Ec|[]]; [eauto|]. congruence.
    + destruct (proj1 (Hfin f1)) as (b1 & Hb1 & E1 & Hff1); [right; now left|].
      rewrite (dataByLabel_in l b), <- E1, (dataByLabel_in l b1) by auto using NoDup_labels. cbn [bind].
      inversion Hfs' as [|? ? Hfs'' Hf1]; subst. rewrite Forall_forall in Hf1.
      assert (Hne : bkLabel b1 <> bkLabel b).
      { intros EE. specialize (Hf0 (bkLabel b1) (or_introl eq_refl)). rewrite ?E, EE in Hf0. exact (slt_irrefl _ Hf0). }
      assert (Hno : newestOtherFull l b b1).
      { repeat split; auto. intros c Hcl Hcf Hcn. destruct (proj2 (Hfin (bkLabel c))) as [Ec|[Ec|Hin]]; [eauto|congruence| |].
        - rewrite Ec. apply sle_refl.
        - apply slt_le. now apply Hf1. }
      assert (Hnou : forall c, newestOtherFull l b c -> c = b1).
      { intros c (H1 & H2 & H3 & H4). eapply label_inj; eauto using NoDup_labels. apply sle_antisym.
        - now apply Hno.
        - apply H4; auto. }
      destruct (Z.eqb_spec (bkPgId b) (bkPgId b1)) as [Ep|Ep]; cbn [negb].
      * split.
        { intros (_ & Hall). exfalso. apply (Hall b1 Hno). congruence. }
        intros _. apply Hrest. exists b1. repeat split; auto.
      * split; [reflexivity|]. intros Hn. exfalso. apply Hn. split; [exact Hnew|]. intros c Hcc. apply Hnou in Hcc. subst c. congruence.
  - cbn [bind]. split.
    + intros (Hn & _). apply Hnewu in Hn. subst b0. congruence.
    + intros _. apply Hrest. exists b0. rewrite E0. auto.
Qed.

(** * The whole change of the list *)

Lemma expireFull_zero dry l : expireFull dry 0 l = (l, [], []).
Proof. reflexivity. Qed.
Lemma expireDiff_zero dry l : expireDiff dry 0 l = (l, [], []).
Proof. reflexivity. Qed.

Lemma survives_any l l' P : survives l l' P -> exists Q, survives l l' Q.
Proof. eauto. Qed.

Lemma expireFull_survives dry n l l' o e : goodHistory l -> expireFull dry n l = (l', o, e) ->
  goodHistory l' /\ sublist l' l /\ exists P, survives l l' P.
Proof.
  intros Hg H. pose proof Hg as (Ho & _). unfold expireFull in H.
  assert (Hid : l = l' -> goodHistory l' /\ sublist l' l /\ exists P, survives l l' P).
  { intros <-. split; [exact Hg|]. split; [apply sublist_refl|]. eexists. apply survives_refl. }
  destruct (0 <? n)%nat; [|injection H as H _ _; exact (Hid H)].
  destruct (n <? _)%nat; [|injection H as H _ _; exact (Hid H)].
  destruct (expireList_ok _ _ _ _ _ _ Ho H) as [H1 H2]. split; [eapply survives_good; eauto|]. split; eauto.
Qed.

Lemma expireDiff_survives dry n l l' o e : goodHistory l -> expireDiff dry n l = (l', o, e) ->
  goodHistory l' /\ sublist l' l /\ exists P, survives l l' P.
Proof.
  intros Hg H. pose proof Hg as (Ho & _). unfold expireDiff in H.
  assert (Hid : l = l' -> goodHistory l' /\ sublist l' l /\ exists P, survives l l' P).
  { intros <-. split; [exact Hg|]. split; [apply sublist_refl|]. eexists. apply survives_refl. }
  destruct (0 <? n)%nat; [|injection H as H _ _; exact (Hid H)].
  destruct (n <? _)%nat; [|injection H as H _ _; exact (Hid H)].
  destruct (expireList_ok _ _ _ _ _ _ Ho H) as [H1 H2]. split; [eapply survives_good; eauto|]. split; eauto.
Qed.

Lemma lastFull_dec l b : In b l -> lastFullOfCluster l b \/ ~ lastFullOfCluster l b.
Proof.
  intros Hb.
 
          destruct (existsb (fun f => strLtb (bkLabel b) f) (fullLabels l) || negb (labelFull (bkLabel b))) eqn:Ea.
          - right. intros ((_ & Hf & Hmax) & _). apply orb_true_iff in Ea. destruct Ea as [Ea|Ea].
            + apply existsb_exists in Ea. destruct Ea as (f & Hf1 & Hf2). apply strLtb_lt in Hf2. apply in_fullLabels in Hf1.
              destruct Hf1 as (x & Hx & <- & Hxf). specialize (Hmax x Hx Hxf). apply sle_not_lt in Hmax. contradiction.
            + rewrite Hf in Ea. discriminate.
          - apply orb_false_iff in Ea. destruct Ea as [Ea1 Ea2]. apply negb_false_iff in Ea2.
            assert (Hnew : newestFull l b).
            { split; [exact Hb|]. split; [exact Ea2|]. intros x Hx Hxf. apply sle_not_lt. intros Hlt.
              assert (existsb (fun f => strLtb (bkLabel b) f) (fullLabels l) = true) as C; [|congruence].
              apply existsb_exists. exists (bkLabel x). split; [apply in_fullLabels; eauto|now apply strLtb_lt]. }
            destruct (existsb (fun x => labelFull (bkLabel x) && negb (strEqb (bkLabel x) (bkLabel b)) && (bkPgId x =? bkPgId b) &&
              forallb (fun y => negb (labelFull (bkLabel y)) || strEqb (bkLabel y) (bkLabel b) || strLeb (bkLabel y) (bkLabel x)) l) l) eqn:Eb.
            + right. intros (_ & Hall). apply existsb_exists in Eb. destruct Eb as (x & Hx & Hb2).
              rewrite !andb_true_iff in Hb2. destruct Hb2 as (((Hx1 & Hx2) & Hx3) & Hx4). apply (Hall x); [|lia].
              apply negb_true_iff, strEqb_neq in Hx2. repeat split; auto. intros y Hy Hyf Hyn.
              rewrite forallb_forall in Hx4. specialize (Hx4 y Hy). rewrite Hyf in Hx4. cbn in Hx4.
              destruct (strEqb_spec (bkLabel y) (bkLabel b)); [contradiction|]. now apply strLeb_le in Hx4.
            + left. split; [exact Hnew|]. intros x (Hx1 & Hx2 & Hx3 & Hx4) Ep.
              assert (existsb (fun x => labelFull (bkLabel x) && negb (strEqb (bkLabel x) (bkLabel b)) && (bkPgId x =? bkPgId b) &&
                forallb (fun y => negb (labelFull (bkLabel y)) || strEqb (bkLabel y) (bkLabel b) || strLeb (bkLabel y) (bkLabel x)) l) l = true) as C; [|congruence].
              apply existsb_exists. exists x. split; [exact Hx1|]. rewrite Hx2. cbn. apply strEqb_neq in Hx3. rewrite Hx3. cbn.
              rewrite (proj2 (Z.eqb_eq _ _) Ep). cbn. apply forallb_forall. intros y Hy.
              destruct (labelFull (bkLabel y)) eqn:Hyf; [|reflexivity]. cbn.
              destruct (strEqb_spec (bkLabel y) (bkLabel b)) as [Ey|Ey]; [reflexivity|]. cbn. apply strLeb_le. now apply Hx4. 
Qed.

(** expireInfo never fails except for the adhoc guard, and keeps the history good. *)
Lemma expireInfo_good c l : goodHistory l ->
  match expireInfo c l with
  | Ok ((l', _, _), _) => goodHistory l' /\ sublist l' l
  | Err k => k = EBackupSetInvalid /\ exists lab b, cSet c = Some lab /\ In b l /\ bkLabel b = lab /\ lastFullOfCluster l b
  | UB => False
  end.
Proof.
  intros Hg. unfold expireInfo. destruct (cSet c) as [lab|].
  - destruct (labelExists_spec l lab) as [Hin|Hin]; [|cbn; auto using sublist_refl].
    apply in_map_iff in Hin. destruct Hin as (b & <- & Hb).
    destruct (expireAdhoc_spec (cDry c) l b Hg Hb) as [H1 H2].
    destruct (expireAdhoc (cDry c) l (bkLabel b)) as [[[l' o] e]|k|] eqn:E; cbn [bind].
    + assert (Hn : ~ lastFullOfCluster l b) by (intros Hn; apply H1 in Hn; discriminate).
      destruct (H2 Hn) as (l2 & o2 & e2 & E2 & Hg2 & Hs2 & _). injection E2 as -> _ _. auto.
    + destruct (lastFull_dec l b Hb) as [Hl|Hl].
      2:{ destruct (H2 Hl) as (l2 & o2 & e2 & E2 & _). discriminate. }
      specialize (H1 Hl). injection H1 as ->.
      split; [reflexivity|]. exists (bkLabel b), b. auto.
    + assert (Hn : ~ ~ lastFullOfCluster l b). { intros Hn. destruct (H2 Hn) as (? & ? & ? & E2 & _). discriminate. }
      apply Hn. intros Hl. apply H1 in Hl. discriminate.
  - set (ft := length (labelList labelFull l)). set (eff := cOldest c && (1 <? ft)%nat).
    assert (Hfirst : exists l1 o1 e1 ar,
      (if (if eff then false else cTime c)
       then match (if eff then Some (ft - 1)%nat else cRetFull c) with
            | Some d => expireTime (cDry c) (cNow c - Z.of_nat d * 86400) l
            | None => Ok ((l, [], []), None)
            end
       else Ok (expireFull (cDry c) (ret0 (if eff then Some (ft - 1)%nat else cRetFull c)) l, None)) = Ok ((l1, o1, e1), ar)
      /\ goodHistory l1 /\ sublist l1 l).
    { destruct (if eff then false else cTime c).
      - destruct (if eff then Some (ft - 1)%nat else cRetFull c) as [d|].
        + destruct (expireTime_spec (cDry c) (cNow c - Z.of_nat d * 86400) l Hg) as (l1 & o1 & e1 & ar & E & H1 & H2 & _). eauto 8.
        + exists l, [], [], None. auto using sublist_refl.
      - destruct (expireFull (cDry c) (ret0 (if eff then Some (ft - 1)%nat else cRetFull c)) l) as [[l1 o1] e1] eqn:E.
        destruct (expireFull_survives _ _ _ _ _ _ Hg E) as (H1 & H2 & _). exists l1, o1, e1, None. auto. }
    destruct Hfirst as (l1 & o1 & e1 & ar & E & Hg1 & Hs1). rewrite E. cbn [bind].
    destruct (expireDiff (cDry c) (ret0 (cRetDiff c)) l1) as [[l2 o2] e2] eqn:E2.
    destruct (expireDiff_survives _ _ _ _ _ _ Hg1 E2) as (Hg2 & Hs2 & _). split; [exact Hg2|]. eapply sublist_trans; eauto.
Qed.
