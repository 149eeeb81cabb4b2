From Verif Require Import Base Str JobModel JobSpec JobProof JobProof2 JobProof3.
From Coq Require Import Sorting.Sorted Sorting.Permutation.
Open Scope Z_scope.

(** * Targets *)
Lemma targetList_in targets t : In t (targetList targets) <-> targetPrefixes targets t.
Proof.
  unfold targetList, targetPrefixes. cbn [In]. split.
  - intros [<-|H]; [now left|]. right. apply in_map_iff in H as ((id & name) & <- & H). apply filter_In in H as [H1 H2]. cbn in H2. apply negb_true_iff, Z.eqb_neq in H2. exists id, name. auto.
  - intros [->|(id & name & H1 & H2 & ->)]; [now left|]. right. apply in_map_iff. exists (id, name). split; [reflexivity|]. apply filter_In. split; [exact H1|]. cbn. now apply negb_true_iff, Z.eqb_neq.
Qed.
Lemma begins_iff f t : strBeginsWith (mfName f) t = true <-> inTarget f t.
Proof.
  unfold strBeginsWith, inTarget. rewrite strEqb_eq. split.
  - intros E. exists (skipn (length t) (mfName f)). rewrite <- E at 1. symmetry. apply firstn_skipn.
  - intros (r & ->). rewrite firstn_app, firstn_all, Nat.sub_diag. cbn. apply app_nil_r.
Qed.
Lemma targetFind_in f ts i : targetFind (mfName f) ts = Some i -> exists t, nth_error ts i = Some t /\ inTarget f t.
Proof.
  revert i. induction ts as [|t ts IH]; intros i; cbn; [discriminate|]. destruct (strBeginsWith (mfName f) t) eqn:E.
  - intros H. injection H as <-. exists t. split; [reflexivity|now apply begins_iff].
  - destruct (targetFind (mfName f) ts) as [j|]; [|discriminate]. cbn. intros H. injection H as <-. apply IH. reflexivity.
Qed.
Lemma targetFind_same f g ts : (forall t, In t ts -> (inTarget f t <-> inTarget g t)) -> targetFind (mfName f) ts = targetFind (mfName g) ts.
Proof.
  induction ts as [|t ts IH]; intros H; cbn; [reflexivity|]. rewrite IH by (intros x Hx; apply H; now right). specialize (H t (or_introl eq_refl)). rewrite <- !begins_iff in H.
  destruct (strBeginsWith (mfName f) t), (strBeginsWith (mfName g) t); try reflexivity; exfalso; destruct H as [H1 H2]; [specialize (H1 eq_refl)|specialize (H2 eq_refl)]; discriminate.
Qed.
Lemma same_find targets f g : sameTarget targets f g -> targetFind (mfName f) (targetList targets) = targetFind (mfName g) (targetList targets).
Proof. intros H. apply targetFind_same. intros t Ht. apply H. now apply targetList_in. Qed.
Lemma targetFind_none f targets : targetFind (mfName f) (targetList targets) = None <-> forall t, targetPrefixes targets t -> ~ inTarget f t.
Proof.
  assert (K : forall ts, targetFind (mfName f) ts = None <-> forall t, In t ts -> ~ inTarget f t).
  { induction ts as [|t ts IH]; cbn; [split; [intros _ ? []|reflexivity]|]. destruct (strBeginsWith (mfName f) t) eqn:E.
    - split; [discriminate|]. intros H. exfalso. apply (H t); [now left|now apply begins_iff].
    - destruct (targetFind (mfName f) ts) as [i|]; cbn.
      + split; [discriminate|]. intros H. assert (K : Some i = None) by (apply IH; intros x Hx; apply H; now right). discriminate.
      + split; [|reflexivity]. intros _ x [<-|Hx]; [rewrite <- begins_iff; congruence|]. apply IH; [reflexivity|exact Hx]. }
  rewrite K. split; intros H t Ht; apply H; now apply targetList_in.
Qed.
Lemma primary_iff m f : filePrimary m (mfName f) = true <-> primaryOnly m f.
Proof. unfold filePrimary, primaryOnly. rewrite orb_true_iff, strEqb_eq, negb_true_iff. reflexivity. Qed.

(** * Queues after one is replaced by its tail *)
Lemma holds_set P queues i q l q' : nth_error queues i = Some q -> q = l ++ q' -> holds P queues -> holds P (queueSet queues i q').
Proof.
  intros E -> H j r Ej. assert (Hi : (i < length queues)%nat) by (apply nth_error_Some; congruence). rewrite queueSet_nth in Ej by exact Hi. destruct (Nat.eqb_spec j i) as [->|_]; [|exact (H j r Ej)].
  injection Ej as <-. specialize (H _ _ E). apply Forall_app in H as [_ H]. exact H.
Qed.
Lemma sorted_tail {A} (R : A -> A -> Prop) l r : StronglySorted R (l ++ r) -> StronglySorted R r.
Proof. induction l; cbn; [auto|]. intros H. inversion H; auto. Qed.
Lemma sorted_head {A} (R : A -> A -> Prop) l r : StronglySorted R (l ++ r) -> StronglySorted R l.
Proof. induction l as [|x l IH]; cbn; [constructor|]. intros H. inversion H as [|? ? H1 H2]; subst. constructor; [auto|]. apply Forall_app in H2. tauto. Qed.
Lemma sorted_across {A} (R : A -> A -> Prop) l r x y : StronglySorted R (l ++ r) -> In x l -> In y r -> R x y.
Proof. induction l as [|z l IH]; cbn; [intros _ []|]. intros H. inversion H as [|? ? H1 H2]; subst. intros [->|Hx] Hy; [|auto]. rewrite Forall_forall in H2. apply H2, in_or_app. now right. Qed.
Lemma sorted_set R queues i q l q' : nth_error queues i = Some q -> q = l ++ q' -> Forall (StronglySorted R) queues -> Forall (StronglySorted R) (queueSet queues i q').
Proof.
  intros E -> H. assert (Hi : (i < length queues)%nat) by (apply nth_error_Some; congruence). apply Forall_forall. intros x Hx. apply In_nth_error in Hx as (j & Ej). rewrite queueSet_nth in Ej by exact Hi.
  rewrite Forall_forall in H. destruct (Nat.eqb_spec j i) as [E'|_]; [|apply H; now apply nth_error_In in Ej]. injection Ej as <-. apply nth_error_In, H in E. now apply sorted_tail in E.
Qed.

(** * Restore *)
Definition inQueues (queues : list (list mfile)) (i : nat) (f : mfile) : Prop := exists q, nth_error queues i = Some q /\ In f q.
Lemma inQueues_concat queues f : In f (concat queues) <-> exists i, inQueues queues i f.
Proof.
  rewrite in_concat. unfold inQueues. split.
  - intros (q & H1 & H2). apply In_nth_error in H1 as (i & H1). eauto.
  - intros (i & q & H1 & H2). apply nth_error_In in H1. eauto.
Qed.
Definition restoreStep (queues : list (list mfile)) (a : option (Z * list mfile)) (st' : list (list mfile)) : Prop :=
  (a = None /\ st' = queues /\ concat queues = []) \/
  exists i q q' key l, a = Some (key, l) /\ nth_error queues i = Some q /\ restoreTake q = Some (key, l, q') /\ st' = queueSet queues i q'.
Lemma restore_step queues k : 0 <= k -> (0 < length queues)%nat -> exists a st', restoreJobCallback queues k = Ok (a, st') /\ restoreStep queues a st'.
Proof.
  intros Hk Hl. unfold restoreJobCallback. set (total := Z.of_nat (length queues)). destruct (Z.eqb_spec total 0); [lia|].
  assert (Hs : 0 <= k mod total < total) by (apply Z.mod_pos_bound; lia).
  destruct (scan_spec restoreTake restoreTake_none k total 0 (k mod total) ltac:(lia) Hs ltac:(lia) queues (S (length queues)) ltac:(lia) 0 ltac:(lia) ltac:(lia) ltac:(intros; lia)) as [(i & q & [key l] & q' & Hi & Eq & Et & E)|(H & E)];
    rewrite at_0 in E by exact Hs.
  - exists (Some (key, l)), (queueSet queues (Z.to_nat (i + 0)) q'). split; [exact E|]. right. exists (Z.to_nat (i + 0)), q, q', key, l. auto.
  - exists None, queues. split; [exact E|]. left. split; [reflexivity|]. split; [reflexivity|]. apply concat_nil. intros i q Eq. assert (i < length queues)%nat by (apply nth_error_Some; congruence).
    specialize (H (Z.of_nat i) ltac:(lia)). unfold qnth in H. rewrite Z.add_0_r, Nat2Z.id in H. congruence.
Qed.
Lemma restore_step_inv queues k a st' : 0 <= k -> (0 < length queues)%nat -> restoreJobCallback queues k = Ok (a, st') -> restoreStep queues a st'.
Proof. intros Hk Hl E. destruct (restore_step queues k Hk Hl) as (a1 & s1 & E1 & H). rewrite E in E1. injection E1 as <- <-. exact H. Qed.
Lemma restoreStep_perm queues a st' : restoreStep queues a st' -> Permutation (concat queues) (answerFiles a ++ concat st') /\ length st' = length queues.
Proof.
  intros [(-> & -> & E)|(i & q & q' & key & l & -> & E1 & E2 & ->)]; [now split|]. apply restoreTake_split in E2 as (-> & _). split; [apply (queueSet_perm _ _ _ _ _ E1); reflexivity|].
  apply queueSet_length, nth_error_Some. congruence.
Qed.
Definition rinv (ts : list str) (queues : list (list mfile)) : Prop :=
  (0 < length queues)%nat /\ holds (fun i f => targetFind (mfName f) ts = Some i) queues /\ Forall (StronglySorted (R_ restoreLex)) queues.
Lemma rinv_step ts queues a st' : rinv ts queues -> restoreStep queues a st' -> rinv ts st'.
Proof.
  intros (H1 & H2 & H3) K. pose proof (restoreStep_perm _ _ _ K) as [_ L]. destruct K as [(-> & -> & _)|(i & q & q' & key & l & -> & E1 & E2 & ->)]; [repeat split; auto|].
  apply restoreTake_split in E2 as (E2 & _). split; [lia|]. split; [eapply holds_set; eauto|eapply sorted_set; eauto].
Qed.
Lemma restoreRun_perm st l st' : restoreRun st l st' -> (0 < length st)%nat -> Permutation (concat st) (runFiles l ++ concat st').
Proof.
  induction 1 as [st|st k a st1 l st2 Hk E H IH]; intros L; [reflexivity|]. apply restore_step_inv in E; [|exact Hk|exact L]. apply restoreStep_perm in E as [P L1]. cbn. rewrite P, IH by lia. now rewrite app_assoc.
Qed.
Lemma restoreRun_total st clients : (0 < length st)%nat -> Forall (fun k => 0 <= k) clients -> exists l st', restoreRun st l st' /\ map fst l = clients.
Proof.
  revert st. induction clients as [|k clients IH]; intros st L H; [exists [], st; split; [constructor|reflexivity]|]. inversion H as [|? ? Hk H']; subst.
  destruct (restore_step st k Hk L) as (a & s & E & Hs). apply restoreStep_perm in Hs as [_ Ls]. destruct (IH s ltac:(lia) H') as (l & s' & R & E').
  exists ((k, a) :: l), s'. split; [econstructor; eauto|cbn; congruence].
Qed.
(* nothing is left after an answer without job *)
Lemma restoreRun_done st l st' : restoreRun st l st' -> (0 < length st)%nat -> In None (map snd l) -> concat st' = [].
Proof.
  induction 1 as [st|st k a st1 l st2 Hk E H IH]; intros L Hn; [destruct Hn|]. apply restore_step_inv in E; [|exact Hk|exact L]. pose proof (restoreStep_perm _ _ _ E) as [P L1]. destruct Hn as [Hn|Hn]; [|apply IH; [lia|exact Hn]].
  cbn in Hn. subst a. destruct E as [(_ & -> & E)|(i & q & q' & key & x & E1 & _)]; [|discriminate]. apply restoreRun_perm in H; [|exact L]. rewrite E in H. apply Permutation_nil in H. now apply app_eq_nil in H.
Qed.

(* what a job is *)
Definition restoreJobOk (targets : list (Z * str)) (key : Z) (l : list mfile) : Prop :=
  l <> [] /\ (exists t, targetPrefixes targets t /\ Forall (fun f => inTarget f t) l) /\
  (key = 0 -> length l = 1%nat) /\ Forall (fun f => mfBundleId f = key) l /\ (key <> 0 -> exists ref, Forall (fun f => mfReference f = ref) l) /\
  (key <> 0 -> StronglySorted (fun f g => mfBundleOffset f <= mfBundleOffset g) (filter (fun f => negb (mfSize f =? 0)) l)).
Lemma restoreLex_offset a b : mfSize a <> 0 -> mfSize b <> 0 -> mfBundleId a = mfBundleId b -> mfBundleId a <> 0 -> mfReference a = mfReference b -> R_ restoreLex a b -> mfBundleOffset a <= mfBundleOffset b.
Proof.
  intros H1 H2 H3 H4 H5. unfold R_, restoreLex, lex, lexIf, zflag. rewrite (proj2 (Z.eqb_neq _ _) H1), (proj2 (Z.eqb_neq _ _) H2), <- H3, Z.compare_refl, (proj2 (Z.eqb_neq _ _) H4), <- H5.
  assert (referenceCmp (mfReference a) (mfReference a) = Eq) as -> by (destruct (mfReference a); cbn; [now apply strCmp_eq|reflexivity]). rewrite Z.compare_refl. destruct (Z.compare_spec (mfBundleOffset a) (mfBundleOffset b)); [lia|lia|congruence].
Qed.
Lemma sorted_filter_impl {A} (R S' : A -> A -> Prop) p l : (forall a b, In a l -> In b l -> p a = true -> p b = true -> R a b -> S' a b) -> StronglySorted R l -> StronglySorted S' (filter p l).
Proof.
  induction l as [|x l IH]; intros H K; cbn; [constructor|]. inversion K as [|? ? K1 K2]; subst. specialize (IH ltac:(intros; apply H; auto; now right) K1). destruct (p x) eqn:Ep; [|exact IH]. constructor; [exact IH|].
  apply Forall_forall. intros y Hy. apply filter_In in Hy as [Hy Ey]. rewrite Forall_forall in K2. apply H; auto; [now left|now right].
Qed.
Lemma restoreTake_ok targets queues i q key l q' : rinv (targetList targets) queues -> nth_error queues i = Some q -> restoreTake q = Some (key, l, q') -> restoreJobOk targets key l.
Proof.
  intros (H1 & H2 & H3) Eq Et. apply restoreTake_split in Et as (-> & Hne & Hk & Hb). specialize (H2 _ _ Eq). apply Forall_app in H2 as [H2 _].
  split; [exact Hne|]. split.
  { destruct l as [|f l]; [congruence|]. inversion H2 as [|? ? Hf _]; subst. apply targetFind_in in Hf as (t & Ht & _). exists t. split; [apply targetList_in; now apply nth_error_In in Ht|].
    eapply Forall_impl; [|exact H2]. intros g Hg. apply targetFind_in in Hg as (t' & Ht' & Hg). rewrite Ht in Ht'. injection Ht' as <-. exact Hg. }
  split; [intros ->; exact Hk|]. split; [exact Hb|]. split.
  - intros N. destruct (Z.eqb_spec key 0); [contradiction|]. destruct Hk as (ref & Hr & _). exists ref. eapply Forall_impl; [|exact Hr]. cbn. tauto.
  - intros N. destruct (Z.eqb_spec key 0); [contradiction|]. destruct Hk as (ref & Hr & _). rewrite Forall_forall in Hr. rewrite Forall_forall in H3. apply nth_error_In, H3, sorted_head in Eq.
    eapply sorted_filter_impl; [|exact Eq]. intros a b Ha Hb' Ea Eb K. apply negb_true_iff, Z.eqb_neq in Ea, Eb. destruct (Hr a Ha) as [R1 R2]. destruct (Hr b Hb') as [R3 R4].
    apply restoreLex_offset; auto; congruence.
Qed.
Lemma restoreRun_jobs targets st l st' : restoreRun st l st' -> rinv (targetList targets) st -> forall k key fs, In (k, Some (key, fs)) l -> restoreJobOk targets key fs.
Proof.
  induction 1 as [st|st k a st1 l st2 Hk E H IH]; intros I c key fs Hin; [destruct Hin|]. apply restore_step_inv in E; [|exact Hk|apply I]. destruct Hin as [Hin|Hin]; [|eapply IH; eauto; eapply rinv_step; eauto].
  injection Hin as <- ->. destruct E as [(E & _)|(i & q & q' & key' & x & E1 & E2 & E3 & _)]; [discriminate|]. injection E1 as <- <-. eapply restoreTake_ok; eauto.
Qed.
Lemma restoreRun_app st l1 l2 st' : restoreRun st (l1 ++ l2) st' -> exists s, restoreRun st l1 s /\ restoreRun s l2 st'.
Proof. revert st. induction l1 as [|[k a] l1 IH]; intros st H; [exists st; split; [constructor|exact H]|]. cbn in H. inversion H; subst. destruct (IH _ H7) as (s & R1 & R2). exists s. split; [econstructor; eauto|exact R2]. Qed.
Lemma rinv_run ts st l st' : restoreRun st l st' -> rinv ts st -> rinv ts st'.
Proof. induction 1 as [|st k a st1 l st2 Hk E H IH]; intros I; [exact I|]. apply IH. eapply rinv_step; [exact I|]. eapply restore_step_inv; eauto. apply I. Qed.

(* between two files of one bundle there are only files of this bundle *)
Lemma referenceCmp_wo : wo (fun a b => referenceCmp (mfReference a) (mfReference b)).
Proof.
  split.
  - intros a b. destruct (mfReference a), (mfReference b); cbn; auto. apply strCmp_antisym.
  - intros a b c. pose proof (wo_str mfName) as [_ W]. destruct (mfReference a) as [x|], (mfReference b) as [y|], (mfReference c) as [z|]; cbn; try congruence.
    pose (g := fun s => mkMfile s true 0 0 0 None 0 0). exact (W (g x) (g y) (g z)).
Qed.
Lemma restore_between f h g : R_ restoreLex f h -> R_ restoreLex h g -> mfSize f <> 0 -> mfSize g <> 0 -> mfBundleId f = mfBundleId g -> mfBundleId f <> 0 -> mfReference f = mfReference g ->
  mfBundleId h = mfBundleId f /\ mfReference h = mfReference f.
Proof.
  unfold R_, restoreLex, lex, lexIf. intros H1 H2 Zf Zg Eb Nb Er. unfold zflag in *. rewrite (proj2 (Z.eqb_neq _ _) Zf) in H1. rewrite (proj2 (Z.eqb_neq _ _) Zg) in H2.
  destruct (Z.eqb_spec (mfSize h) 0); [cbn in H2; congruence|]. change (0 ?= 0) with Eq in *. cbv iota in *.
  destruct (Z.compare_spec (mfBundleId f) (mfBundleId h)) as [E1|E1|E1]; [| |congruence].
  - split; [congruence|]. rewrite <- E1, Eb, Z.compare_refl in H2. rewrite <- Eb in H2. rewrite (proj2 (Z.eqb_neq _ _) Nb) in H1, H2. rewrite <- Er in H2. pose proof referenceCmp_wo as [W _]. specialize (W f h). cbn in W. rewrite W in H2.
    destruct (referenceCmp (mfReference f) (mfReference h)) eqn:Ec; cbn in *; try congruence. apply ref_eq in Ec. congruence.
  - destruct (Z.compare_spec (mfBundleId h) (mfBundleId g)); [lia|lia|congruence].
Qed.
Lemma restoreRun_bundle targets st l1 k1 a1 l2 k2 a2 l3 st' f g : restoreRun st (l1 ++ (k1, a1) :: l2 ++ (k2, a2) :: l3) st' -> rinv (targetList targets) st ->
  In f (answerFiles a1) -> In g (answerFiles a2) -> sameTarget targets f g -> mfSize f <> 0 -> mfSize g <> 0 -> mfBundleId f = mfBundleId g -> mfReference f = mfReference g -> mfBundleId f = 0.
Proof.
  intros R I Hf Hg St Zf Zg Eb Er. destruct (Z.eq_dec (mfBundleId f) 0) as [|N]; [assumption|exfalso]. apply restoreRun_app in R as (s & R1 & R2). apply (rinv_run _ _ _ _ R1) in I. clear R1 st. inversion R2 as [|? ? ? s1 ? ? Hk E R3]; subst.
  apply restore_step_inv in E; [|exact Hk|apply I]. pose proof (rinv_step _ _ _ _ I E) as I1. destruct E as [(-> & _)|(i & q & q' & key & x & -> & E1 & E2 & ->)]; [destruct Hf|]. cbn in Hf.
  apply restoreTake_split in E2 as (-> & Hne & Hk2 & Hb). assert (Hg' : In g (concat (queueSet s i q'))).
  { apply restoreRun_perm in R3; [|apply I1]. eapply Permutation_in; [symmetry; exact R3|]. apply in_or_app. left. unfold runFiles. rewrite flat_map_app. apply in_or_app. right. cbn. apply in_or_app. now left. }
  apply inQueues_concat in Hg' as (j & r & Ej & Hr). destruct I as (L & Hh & Hs). destruct I1 as (_ & Hh1 & _).
  assert (Fj : targetFind (mfName g) (targetList targets) = Some j) by (pose proof (Hh1 _ _ Ej) as K; rewrite Forall_forall in K; auto).
  assert (Fi : targetFind (mfName f) (targetList targets) = Some i) by (pose proof (Hh _ _ E1) as K; rewrite Forall_forall in K; apply K, in_or_app; now left).
  apply same_find in St. assert (j = i) as -> by congruence. rewrite queueSet_nth in Ej by (apply nth_error_Some; congruence). rewrite Nat.eqb_refl in Ej. injection Ej as <-.
  rewrite Forall_forall in Hb. pose proof (Hb _ Hf) as Kf. destruct (Z.eqb_spec key 0) as [->|Nk]; [congruence|]. destruct Hk2 as (ref & Hr1 & Hr2). rewrite Forall_forall in Hr1. destruct (Hr1 _ Hf) as [_ Kr].
  destruct q' as [|h q']; [destruct Hr|]. rewrite Forall_forall in Hs. apply nth_error_In, Hs in E1. apply Hr2.
  destruct Hr as [<-|Hr]; [split; congruence|]. pose proof (sorted_across _ _ _ f h E1 Hf (or_introl eq_refl)) as S1. apply sorted_tail in E1. inversion E1 as [|? ? _ S2]; subst. rewrite Forall_forall in S2. specialize (S2 _ Hr).
  destruct (restore_between f h g S1 S2 Zf Zg Eb N Er). split; congruence.
Qed.
