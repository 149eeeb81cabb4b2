(** Proofs for the recovery settings. *)
From Verif Require Import Base Str LsnModel LsnProof RegModel RegNameModel RegSpec RegProof RegProof2 RegProof3 JsonModel JsonProof2 JsonProof4 IniModel SpoolModel HttpModel HttpSpec HttpProof UriProof2 RecoverModel RecoverSpec.
From Coq Require Import String List Sorted Permutation.
Open Scope Z_scope. Open Scope list_scope.

(** * Settings put over others *)
Definition over (P : str -> str -> Prop) (r r2 : list (str * str)) : Prop := (forall n x, kvGet r2 n = Some x <-> P n x \/ ((forall y, ~ P n y) /\ kvGet r n = Some x)) /\ (NoDup (map fst r) -> NoDup (map fst r2)).
Lemma over_put r k v : over (fun n x => n = k /\ x = v) r (kvPut r k v).
Proof.
  split; [|intros N; now apply put_nodup]. intros n x. rewrite put_get. destruct (strEqb k n) eqn:E.
  - apply strEqb_eq in E. subst n. split; [intros [= <-]; auto|]. intros [(_ & ->)|(H & _)]; [reflexivity|]. exfalso. now apply (H v).
  - split.
    + intros H. right. split; [|exact H]. intros y (-> & _). rewrite strEqb_refl in E. discriminate.
    + intros [(-> & _)|(_ & H)]; [rewrite strEqb_refl in E; discriminate|exact H].
Qed.
Lemma over_id r : over (fun _ _ => False) r r.
Proof. split; [|auto]. intros n x. split; [right; split; auto|]. intros [[]|(_ & H)]; exact H. Qed.
Lemma over_comp (P Q : str -> str -> Prop) r r2 r3 : over P r r2 -> over Q r2 r3 -> (forall n x y, P n x -> Q n y -> False) -> over (fun n x => P n x \/ Q n x) r r3.
Proof.
  intros (A & A2) (B & B2) D. split; [|auto]. intros n x. rewrite B, A. split.
  - intros [H|(NQ & [H|(NP & H)])]; [auto|auto|]. right. split; [|exact H]. intros y [Y|Y]; [now apply (NP y)|now apply (NQ y)].
  - intros [[H|H]|(N & H)]; [right; split; [|now left]; intros y Y; eapply D; eauto|now left|]. right. split; [intros y Y; apply (N y); now right|]. right. split; [|exact H]. intros y Y. apply (N y). now left.
Qed.
Lemma over_ext (P Q : str -> str -> Prop) r r2 : over P r r2 -> (forall n x, P n x <-> Q n x) -> over Q r r2.
Proof.
  intros (A & A2) E. split; [|exact A2]. intros n x. rewrite A, E. split; (intros [H|(N & H)]; [auto|]; right; split; [|exact H]; intros y Y; apply (N y); now apply E).
Qed.

(** * Parts *)
Lemma joinSpace_spaced l : spaced l (joinSpace l).
Proof. induction l as [|x [|y l] IH]; [constructor..|]. cbn [joinSpace] in *. now apply (sp_more x y l). Qed.
Lemma spaced_unique l t : spaced l t -> forall t2, spaced l t2 -> t = t2.
Proof. induction 1 as [|x|x y l t H IH]; intros t2 H2; inversion H2; subst; [reflexivity..|]. f_equal. f_equal. now apply IH. Qed.
Lemma spaced_tail l a b : spaced (l ++ [a; b]) (match l with [] => [] | _ => joinSpace l ++ txt " " end ++ a ++ txt " " ++ b).
Proof.
  induction l as [|x l IH]; [cbn [app]; apply sp_more, sp_one|]. destruct l as [|y l]; [cbn [app joinSpace]; rewrite <- app_assoc; now apply sp_more|].
  change ((x :: y :: l) ++ [a; b]) with (x :: y :: (l ++ [a; b])). change (joinSpace (x :: y :: l)) with (x ++ txt " " ++ joinSpace (y :: l)). rewrite <- !app_assoc. apply sp_more.
  cbn [app] in IH. rewrite <- app_assoc in IH. exact IH.
Qed.
Lemma und_same k n : underscores k = n <-> sameName k n.
Proof.
  unfold underscores, sameName. revert n. induction k as [|c k IH]; intros n; cbn [map].
  - split; [intros <-; constructor|]. intros H. now inversion H.
  - split.
    + intros <-. constructor; [|now apply IH]. destruct (Z.eqb_spec c 45); auto.
    + intros H. inversion H as [|? b ? n2 D F]; subst. apply IH in F. rewrite F. f_equal. destruct (Z.eqb_spec c 45); lia.
Qed.
Section User.
  Context (kv : list (str * str)).
  Definition putUser (r : list (str * str)) (k : str) := kvPut r (underscores k) (match kvGet kv k with Some v => v | None => [] end).
  Lemma fold_user l : forall r, (NoDup (map fst r) -> NoDup (map fst (fold_left putUser l r))) /\ forall n x, kvGet (fold_left putUser l r) n = Some x <->
    (exists l1 k l2, l = l1 ++ k :: l2 /\ underscores k = n /\ x = (match kvGet kv k with Some v => v | None => [] end) /\ (forall k2, In k2 l2 -> underscores k2 <> n)) \/
    ((forall k, In k l -> underscores k <> n) /\ kvGet r n = Some x).
  Proof.
    induction l as [|k0 l IH]; intros r; cbn [fold_left].
    - split; [auto|]. intros n x. split; [right; split; [intros k []|exact H]|]. intros [(l1 & k & l2 & E & _)|(_ & H)]; [destruct l1; discriminate|exact H].
    - destruct (IH (putUser r k0)) as (ND & G). split; [intros N; apply ND; now apply put_nodup|]. intros n x. rewrite G. unfold putUser at 1. rewrite put_get. split.
      + intros [(l1 & k & l2 & -> & E & V & N)|(N & H)]; [left; exists (k0 :: l1), k, l2; auto|]. destruct (strEqb (underscores k0) n) eqn:E.
        * left. apply strEqb_eq in E. injection H as <-. exists [], k0, l. auto.
        * right. split; [|exact H]. intros k [<-|I]; [|auto]. intros K. rewrite K, strEqb_refl in E. discriminate.
      + intros [([|k1 l1] & k & l2 & E & U & V & N)|(N & H)].
        * injection E as -> ->. right. split; [exact N|]. rewrite U, strEqb_refl. now rewrite V.
        * injection E as -> ->. left. exists l1, k, l2. auto.
        * right. split; [intros k I; apply N; now right|]. destruct (strEqb (underscores k0) n) eqn:E; [|exact H]. apply strEqb_eq in E. exfalso. apply (N k0); [now left|exact E].
  Qed.
End User.
Definition userOk (o : opts) : Prop := forall kv, oUser o = Some kv -> NoDup (map fst kv).
Lemma sorted_split l1 (k : str) l2 : StronglySorted sle (l1 ++ k :: l2) -> (forall a, In a l1 -> sle a k) /\ (forall a, In a l2 -> sle k a).
Proof.
  induction l1 as [|x l1 IH]; cbn [app]; intros S; apply StronglySorted_inv in S; destruct S as (S & F); rewrite Forall_forall in F.
  - split; [intros a []|exact F].
  - destruct (IH S) as (A & B). split; [|exact B]. intros a [<-|I]; [|auto]. apply F, in_app_iff. right. now left.
Qed.
Lemma user_spec o : userOk o -> NoDup (map fst (fst (userPart o))) /\ forall n x, kvGet (fst (userPart o)) n = Some x <-> userSetting o n x.
Proof.
  intros UO. unfold userPart, userSetting. destruct (oUser o) as [kv|] eqn:U; cbn [fst].
  - specialize (UO kv U). destruct (fold_user kv (strLstSortAsc (map fst kv)) []) as (ND & G). split; [apply ND; constructor|]. intros n x. fold (putUser kv). rewrite G. split.
    + intros [(l1 & k & l2 & E & UK & V & N)|(_ & H)]; [|discriminate]. exists kv, k. split; [reflexivity|].
      assert (IK : In k (map fst kv)) by (rewrite <- strLstSortAsc_in, E, in_app_iff; right; now left). split.
      { apply kvGet_some; [exact UO|]. destruct (kvGet kv k) eqn:Gk; [now rewrite V|]. apply kvGet_in in Gk. contradiction. }
      split; [now apply und_same|]. intros k2 x2 I S. apply und_same in S. assert (I2 : In k2 (strLstSortAsc (map fst kv))) by (rewrite strLstSortAsc_in; change k2 with (fst (k2, x2)); now apply in_map).
      pose proof (strLstSortAsc_sorted (map fst kv)) as SS. rewrite E in I2, SS. apply sorted_split in SS. apply in_app_iff in I2. destruct I2 as [I2|[<-|I2]]; [now apply SS|apply sle_refl|exfalso; now apply (N k2)].
    + intros (kv2 & k & [= <-] & I & S & M). left. assert (IK : In k (strLstSortAsc (map fst kv))) by (rewrite strLstSortAsc_in; change k with (fst (k, x)); now apply in_map).
      apply in_split in IK. destruct IK as (l1 & l2 & E). exists l1, k, l2. split; [exact E|]. split; [now apply und_same|]. split; [apply kvGet_some in I; [|exact UO]; now rewrite I|].
      intros k2 I2 U2. assert (IK2 : In k2 (map fst kv)) by (rewrite <- strLstSortAsc_in, E, in_app_iff; right; now right). apply in_map_iff in IK2. destruct IK2 as ([k3 x3] & <- & I3). cbn [fst] in *.
      apply und_same in U2. specialize (M _ _ I3 U2). pose proof (strLstSortAsc_sorted (map fst kv)) as SS. rewrite E in SS. apply sorted_split in SS. destruct SS as (_ & SS). specialize (SS _ I2).
      assert (k3 = k) by (now apply sle_antisym). subst k3. assert (NK : NoDup (strLstSortAsc (map fst kv))) by (eapply Permutation_NoDup; [symmetry; apply strLstSortAsc_perm|exact UO]).
      rewrite E in NK. apply NoDup_remove_2 in NK. apply NK, in_app_iff. now right.
  - split; [constructor|]. intros n x. split; [discriminate|]. intros (kv & k & [=] & _).
Qed.
Lemma names_spec o n : existsb (strEqb n) (snd (userPart o)) = true <-> exists kv k x, oUser o = Some kv /\ In (k, x) kv /\ sameName k n.
Proof.
  unfold userPart. rewrite existsb_exists. destruct (oUser o) as [kv|]; cbn [snd].
  - split.
    + intros (m & I & E). apply strEqb_eq in E. subst m. rewrite strLstSortAsc_in in I. apply in_map_iff in I. destruct I as (k & E & I). rewrite strLstSortAsc_in in I. apply in_map_iff in I. destruct I as ([k1 x] & <- & I).
      exists kv, k1, x. split; [reflexivity|]. split; [exact I|]. now apply und_same.
    + intros (kv2 & k & x & [= <-] & I & S). exists n. split; [|apply strEqb_refl]. rewrite strLstSortAsc_in. apply und_same in S. apply in_map_iff. exists k. split; [exact S|]. rewrite strLstSortAsc_in.
      change k with (fst (k, x)). now apply in_map.
  - split; [intros (m & [] & _)|]. intros (kv & k & x & [=] & _).
Qed.

(** * All parts *)
Definition P1 (o : opts) : str -> str -> Prop := fun n x => oArchivePreserve o = false /\ n = txt "archive_mode" /\ x = txt "off".
Lemma archive_over o v r r2 : archivePart o v r = Ok r2 -> over (P1 o) r r2.
Proof.
  unfold archivePart, P1. destruct (oArchivePreserve o); [intros [= <-]; eapply over_ext; [apply over_id|]; intros n x; intuition congruence|].
  destruct (v <? pgVersion12); [discriminate|]. intros [= <-]. eapply over_ext; [apply over_put|]. intros n x. cbn beta. tauto.
Qed.
Definition P2 (o : opts) : str -> str -> Prop := fun n x =>
  (forall kv k y, oUser o = Some kv -> In (k, y) kv -> ~ sameName k (txt "restore_command")) /\ n = txt "restore_command" /\ spaced (oCmd o :: oParam o ++ [txt "%f"; txt """%p"""]) x.
Lemma command_text o : spaced (oCmd o :: oParam o ++ [txt "%f"; txt """%p"""]) (oCmd o ++ txt " " ++ joinSpace (oParam o) ++ (match oParam o with [] => [] | _ => txt " " end) ++ txt "%f ""%p""").
Proof.
  pose proof (spaced_tail (oParam o) (txt "%f") (txt """%p""")) as H. change (txt "%f ""%p""") with (txt "%f" ++ txt " " ++ txt """%p""").
  destruct (oParam o) as [|p l]; [exact (sp_more (oCmd o) _ _ _ H)|]. cbn [app] in H. rewrite <- !app_assoc in H. exact (sp_more (oCmd o) _ _ _ H).
Qed.
Lemma command_over o r : oParam o <> [] -> over (P2 o) r (commandPart o (snd (userPart o)) r).
Proof.
  intros NE. unfold commandPart, P2. destruct (existsb _ _) eqn:E.
  - apply names_spec in E. destruct E as (kv & k & y & U & I & S). eapply over_ext; [apply over_id|]. intros n x. split; [intros []|]. intros (H & _). eapply H; eauto.
  - eapply over_ext; [apply over_put|]. intros n x. cbn beta. pose proof (command_text o) as CT.
    assert (CE : oCmd o ++ txt " " ++ joinSpace (oParam o) ++ txt " %f ""%p""" = oCmd o ++ txt " " ++ joinSpace (oParam o) ++ (match oParam o with [] => [] | _ => txt " " end) ++ txt "%f ""%p""") by (destruct (oParam o); [contradiction|reflexivity]).
    rewrite CE. split.
    + intros (-> & ->). split; [|split; [reflexivity|exact CT]]. intros kv k y U I S. assert (K : existsb (strEqb (txt "restore_command")) (snd (userPart o)) = true) by (apply names_spec; exists kv, k, y; auto). congruence.
    + intros (_ & -> & S). split; [reflexivity|]. eapply spaced_unique; eauto.
Qed.
Definition targets : list (recType * str) := [(TName, txt "recovery_target_name"); (TTime, txt "recovery_target_time"); (TLsn, txt "recovery_target_lsn"); (TXid, txt "recovery_target_xid")].
Definition P3 (o : opts) (v : Z) : str -> str -> Prop := fun n x =>
  (oType o = TImmediate /\ n = txt "recovery_target" /\ x = txt "immediate") \/ (oType o = TStandby /\ v < 120000 /\ n = txt "standby_mode" /\ x = txt "on") \/
  (In (oType o, n) targets /\ x = oTarget o) \/ (In (oType o) [TName; TTime; TLsn; TXid] /\ oExclusive o = Some true /\ n = txt "recovery_target_inclusive" /\ x = txt "false").
Definition recovers (o : opts) : Prop := oType o <> TNone /\ oType o <> TPreserve.
Lemma target_over o v r : recovers o -> over (P3 o v) r (targetPart o v r).
Proof.
  intros (R1 & R2). unfold targetPart, P3, targets.
  assert (G : forall t m, typeText t = m -> oType o = t -> In (t, txt "recovery_target_" ++ m) [(TName, txt "recovery_target_name"); (TTime, txt "recovery_target_time"); (TLsn, txt "recovery_target_lsn"); (TXid, txt "recovery_target_xid")] ->
    over (fun n x => (n = txt "recovery_target_" ++ m /\ x = oTarget o) \/ (oExclusive o = Some true /\ n = txt "recovery_target_inclusive" /\ x = txt "false")) r
      (let r0 := kvPut r (txt "recovery_target_" ++ typeText t) (oTarget o) in match oExclusive o with Some true => kvPut r0 (txt "recovery_target_inclusive") (txt "false") | _ => r0 end)).
  { intros t m <- T I. cbv zeta. assert (B : over (fun n x => n = txt "recovery_target_" ++ typeText t /\ x = oTarget o) r (kvPut r (txt "recovery_target_" ++ typeText t) (oTarget o))) by apply over_put.
    destruct (oExclusive o) as [[]|]; [|eapply over_ext; [exact B|]; intros; intuition congruence..].
    eapply over_ext; [eapply over_comp; [exact B|apply over_put|]|].
    - cbn beta. intros n x y (-> & _) (K & _). cbn [In] in I. decompose [or] I; try contradiction; match goal with H : _ = (t, _) |- _ => injection H as <- end; discriminate.
    - intros; cbn beta; intuition congruence. }
  destruct (oType o) eqn:T; try contradiction.
  - eapply over_ext; [apply over_id|]. intros n x. cbn [In]. intuition congruence.
  - eapply over_ext; [apply over_put|]. intros n x. cbn beta. cbn [In]. intuition congruence.
  - unfold pgVersion12. destruct (Z.ltb_spec v 120000).
    + eapply over_ext; [apply over_put|]. intros n x. cbn beta. cbn [In]. intuition (lia || congruence).
    + eapply over_ext; [apply over_id|]. intros n x. cbn [In]. intuition (lia || congruence).
  - eapply over_ext; [apply (G TName (txt "name") eq_refl eq_refl); now left|]. intros n x. cbn beta. change (txt "recovery_target_" ++ txt "name") with (txt "recovery_target_name"). cbn [In]. intuition (try congruence).
  - eapply over_ext; [apply (G TTime (txt "time") eq_refl eq_refl); right; now left|]. intros n x. cbn beta. change (txt "recovery_target_" ++ txt "time") with (txt "recovery_target_time"). cbn [In]. intuition (try congruence).
  - eapply over_ext; [apply (G TLsn (txt "lsn") eq_refl eq_refl); right; right; now left|]. intros n x. cbn beta. change (txt "recovery_target_" ++ txt "lsn") with (txt "recovery_target_lsn"). cbn [In]. intuition (try congruence).
  - eapply over_ext; [apply (G TXid (txt "xid") eq_refl eq_refl); right; right; right; now left|]. intros n x. cbn beta. change (txt "recovery_target_" ++ txt "xid") with (txt "recovery_target_xid"). cbn [In]. intuition (try congruence).
Qed.
Definition P4 (o : opts) : str -> str -> Prop := fun n x => oAction o = Some x /\ x <> txt "pause" /\ n = txt "recovery_target_action".
Lemma action_over o r : over (P4 o) r (actionPart o r).
Proof.
  unfold actionPart, P4. destruct (oAction o) as [a|]; [|eapply over_ext; [apply over_id|]; intros; intuition congruence]. destruct (strEqb a (txt "pause")) eqn:E; cbn [negb].
  - apply strEqb_eq in E. subst a. eapply over_ext; [apply over_id|]. intros. intuition congruence.
  - eapply over_ext; [apply over_put|]. intros n x. cbn beta. split; [|intuition congruence]. intros (-> & ->). repeat split. intros K. rewrite K, strEqb_refl in E. discriminate.
Qed.
Definition P5 (o : opts) (v : Z) : str -> str -> Prop := fun n x => n = txt "recovery_target_timeline" /\
  ((oTimeline o = Some x /\ (120000 <= v \/ x <> txt "current")) \/ (oTimeline o = None /\ oType o = TImmediate /\ 120000 <= v /\ x = txt "current")).
Lemma timeline_over o v r : over (P5 o v) r (timelinePart o v r).
Proof.
  unfold timelinePart, P5, pgVersion12. destruct (oTimeline o) as [t|].
  - destruct (Z.leb_spec 120000 v); cbn [orb]; [eapply over_ext; [apply over_put|]; intros n x; cbn beta; intuition congruence|]. destruct (strEqb t (txt "current")) eqn:E; cbn [negb].
    + apply strEqb_eq in E. subst t. eapply over_ext; [apply over_id|]. intros n x. intuition (lia || congruence).
    + eapply over_ext; [apply over_put|]. intros n x. cbn beta. split; [|intuition congruence]. intros (-> & ->). split; [reflexivity|]. left. split; [reflexivity|]. right. intros K. rewrite K, strEqb_refl in E. discriminate.
  - destruct (oType o) eqn:T; try (eapply over_ext; [apply over_id|]; intros n x; intuition congruence). destruct (Z.leb_spec 120000 v).
    + eapply over_ext; [apply over_put|]. intros n x. cbn beta. intuition congruence.
    + eapply over_ext; [apply over_id|]. intros n x. intuition (lia || congruence).
Qed.
Definition part (n : str) : Z :=
  if strEqb n (txt "archive_mode") then 1 else if strEqb n (txt "restore_command") then 2 else if strEqb n (txt "recovery_target_action") then 4 else if strEqb n (txt "recovery_target_timeline") then 5 else 3.
Lemma part1 o n x : P1 o n x -> part n = 1. Proof. intros (_ & -> & _). reflexivity. Qed.
Lemma part2 o n x : P2 o n x -> part n = 2. Proof. intros (_ & -> & _). reflexivity. Qed.
Lemma part3 o v n x : P3 o v n x -> part n = 3.
Proof.
  intros [(_ & -> & _)|[(_ & _ & -> & _)|[(I & _)|(_ & _ & -> & _)]]]; try reflexivity. unfold targets in I. cbn [In] in I. repeat (destruct I as [I|I]; [injection I as _ <-; reflexivity|]). destruct I.
Qed.
Lemma part4 o n x : P4 o n x -> part n = 4. Proof. intros (_ & _ & ->). reflexivity. Qed.
Lemma part5 o v n x : P5 o v n x -> part n = 5. Proof. intros (-> & _). reflexivity. Qed.
Lemma forced_parts o v n x : forced o v n x <-> ((((P1 o n x \/ P2 o n x) \/ P3 o v n x) \/ P4 o n x) \/ P5 o v n x).
Proof.
  unfold P1, P2, P3, P4, P5. split.
  - destruct 1 as [H|t H S|H|H L|t m I H|I H|a H N|t H N|H T L]; try tauto.
    + left. left. right. right. right. left. split; [rewrite H; exact I|reflexivity].
  - intros [[[[(H & -> & ->)|(H & -> & S)]|[(H & -> & ->)|[(H & L & -> & ->)|[(I & ->)|(I & E & -> & ->)]]]]|(H & N & ->)]|(-> & [(H & N)|(H & T & L & ->)])].
    all: try (now constructor). eapply fo_target; [exact I|reflexivity].
Qed.
Lemma option_spec o v r : userOk o -> recovers o -> oParam o <> [] -> recoveryOption o v = Ok r -> NoDup (map fst r) /\ forall n x, In (n, x) r <-> wanted o v n x.
Proof.
  intros UO R NE. unfold recoveryOption. destruct (user_spec o UO) as (ND & US). pose proof (command_over o) as CO. destruct (userPart o) as [r0 names]. cbn [fst snd] in *.
  destruct (archivePart o v r0) as [r1| |] eqn:A; [|discriminate..]. cbn [bind]. intros [= <-].
  assert (OV : over (forced o v) r0 (timelinePart o v (actionPart o (targetPart o v (commandPart o names r1))))).
  { eapply over_ext; [|intros n x; symmetry; apply forced_parts].
    eapply over_comp; [eapply over_comp; [eapply over_comp; [eapply over_comp; [exact (archive_over o v r0 r1 A)|apply (CO r1 NE)|]|apply target_over, R|]|apply action_over|]|apply timeline_over|]; cbn beta; intros n x y H H2.
    - apply part1 in H. apply part2 in H2. lia.
    - apply part3 in H2. destruct H as [H|H]; [apply part1 in H|apply part2 in H]; lia.
    - apply part4 in H2. destruct H as [[H|H]|H]; [apply part1 in H|apply part2 in H|apply part3 in H]; lia.
    - apply part5 in H2. destruct H as [[[H|H]|H]|H]; [apply part1 in H|apply part2 in H|apply part3 in H|apply part4 in H]; lia. }
  destruct OV as (OV & ND2). split; [now apply ND2|]. intros n x. rewrite <- kvGet_some by (now apply ND2). rewrite OV. unfold wanted. now rewrite US.
Qed.
Lemma option_res o v : (exists r, recoveryOption o v = Ok r) /\ (oArchivePreserve o = true \/ 120000 <= v) \/ recoveryOption o v = Err EOptionInvalidValue /\ oArchivePreserve o = false /\ v < 120000.
Proof.
  unfold recoveryOption, archivePart, pgVersion12. destruct (userPart o) as [r0 names]. destruct (oArchivePreserve o); cbn [bind]; [left; split; [eauto|auto]|]. destruct (Z.ltb_spec v 120000); cbn [bind]; [right|left]; eauto 6.
Qed.
