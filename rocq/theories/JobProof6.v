From Verif Require Import Base Str JobModel JobSpec JobProof JobProof2 JobProof3 JobProof4 JobProof5.
From Coq Require Import Sorting.Sorted Sorting.Permutation.
Open Scope Z_scope.

Lemma nodup_map_inj {A B} (f : A -> B) l : NoDup (map f l) -> forall a b, In a l -> In b l -> f a = f b -> a = b.
Proof.
  induction l as [|x l IH]; cbn; intros H a b Ha Hb E; [destruct Ha|]. inversion H as [|? ? H1 H2]; subst. destruct Ha as [<-|Ha], Hb as [<-|Hb]; auto.
  - exfalso. apply H1. rewrite E. now apply in_map.
  - exfalso. apply H1. rewrite <- E. now apply in_map.
Qed.
Lemma wo_lt {A} (cmp : A -> A -> comparison) : wo cmp -> (forall a b c, cmp a b = Lt -> cmp b c = Lt -> cmp a c = Lt).
Proof.
  intros [H1 H2] a b c E1 E2. assert (K : cmp a c <> Gt) by (apply (H2 a b c); congruence). destruct (cmp a c) eqn:E; [|reflexivity|congruence]. exfalso.
  assert (K2 : cmp c a <> Gt) by (rewrite (H1 a c), E; discriminate). assert (K3 : cmp b a <> Gt) by (apply (H2 b c a); congruence). rewrite (H1 a b), E1 in K3. now apply K3.
Qed.
Lemma sorted_strict {A} (cmp : A -> A -> comparison) l : (forall a b, In a l -> In b l -> cmp a b = Eq -> a = b) -> NoDup l -> StronglySorted (fun a b => cmp a b <> Gt) l -> StronglySorted (fun a b => cmp a b = Lt) l.
Proof.
  intros He Hn. induction 1 as [|x l H IH Hf]; [constructor|]. inversion Hn as [|? ? Hx Hn']; subst. constructor; [apply IH; [intros; apply He; auto; now right|exact Hn']|]. rewrite Forall_forall in *. intros y Hy.
  specialize (Hf y Hy). destruct (cmp x y) eqn:E; [|reflexivity|congruence]. apply He in E; [|now left|now right]. subst. contradiction.
Qed.
Lemma sort_unique (cmp : mfile -> mfile -> comparison) l l' : totalOrder (fun f => In f l) cmp -> NoDup l -> Permutation l l' -> StronglySorted (fun a b => cmp a b <> Gt) l' -> l' = sortCmp cmp l.
Proof.
  intros T Hn P K. assert (Fl : Forall (fun f => In f l) l) by now apply Forall_forall. symmetry. apply (order_unique (fun f => In f l) cmp T).
  - eapply Permutation_Forall; [symmetry; apply sortCmp_perm|exact Fl].
  - rewrite sortCmp_perm. exact P.
  - eapply Permutation_NoDup; [symmetry; apply sortCmp_perm|exact Hn].
  - now apply (total_sorted (fun f => In f l)).
  - apply sorted_strict; [|eapply Permutation_NoDup; eauto|exact K]. destruct T as (T & _). intros a b Ha Hb. apply T; (eapply Permutation_in; [symmetry; exact P|assumption]).
Qed.
Lemma backup_total c l : NoDup (map mfName l) -> totalOrder (fun f => In f l) (backupCmp c).
Proof.
  intros H. pose proof (backup_wo c) as W. split; [|split].
  - intros a b Ha Hb E. rewrite backupCmp_lex in E. apply backup_eq in E. eapply nodup_map_inj; eauto.
  - intros a b _ _ _. rewrite !backupCmp_lex. apply W.
  - intros a b d _ _ _. rewrite !backupCmp_lex. now apply wo_lt.
Qed.
Lemma restore_total l : (forall a b, In a l -> In b l -> sameSpot a b -> a = b) -> totalOrder (fun f => In f l) restoreCmp.
Proof.
  intros H. pose proof restore_wo as W. assert (K : forall a b, In a l -> In b l -> a <> b -> restoreCmp a b = restoreLex a b).
  { intros a b Ha Hb N. destruct (restoreCmp_lex a b) as [E|[_ E]]; [exact E|]. exfalso. apply N, H; auto. now apply restore_eq. }
  split; [|split].
  - intros a b Ha Hb E. destruct (restoreCmp_lex a b) as [E1|[E1 _]]; [|congruence]. apply H; auto. apply restore_eq. congruence.
  - intros a b Ha Hb N. rewrite !K by auto. apply W.
  - intros a b d Ha Hb Hd E1 E2. assert (L1 : restoreLex a b = Lt) by (destruct (restoreCmp_lex a b) as [E|[E _]]; congruence). assert (L2 : restoreLex b d = Lt) by (destruct (restoreCmp_lex b d) as [E|[E _]]; congruence).
    pose proof (wo_lt _ W _ _ _ L1 L2) as L3. destruct (restoreCmp_lex a d) as [E|[_ E]]; congruence.
Qed.
Lemma binv_init c m online targets files queues size : backupProcessQueue c m online targets files = Ok (queues, size) -> binv c m (targetList targets) (mkBackupJobs queues 1).
Proof. intros E. pose proof (backup_queues c m online targets files) as K. rewrite E in K. destruct K as (K1 & _ & K2 & K3 & _). split; [exact K1|]. split; [exact K2|]. split; [exact K3|cbn; lia]. Qed.
Lemma rinv_init targets files queues size : restoreProcessQueue targets files = Ok (queues, size) -> rinv (targetList targets) queues.
Proof. intros E. pose proof (restore_queues targets files) as K. rewrite E in K. destruct K as (K1 & _ & K2 & K3 & _). repeat split; auto. Qed.
Lemma run_length {A} (l : list (A * option (Z * list mfile))) : (forall k id fs, In (k, Some (id, fs)) l -> fs <> []) ->
  (length (filter (fun p => match snd p with Some _ => true | None => false end) l) <= length (flat_map (fun p => answerFiles (snd p)) l))%nat.
Proof.
  induction l as [|[k [[id fs]|]] l IH]; intros H; cbn; [lia| |].
  - rewrite app_length. specialize (IH ltac:(intros; eapply H; right; eauto)). assert (fs <> []) by (eapply H; left; reflexivity). destruct fs; [congruence|]. cbn. lia.
  - apply IH. intros; eapply H; right; eauto.
Qed.
(* which answers leave nothing *)
Definition exhausted (c : jobConf) (l : list (Z * option (Z * list mfile))) : Prop :=
  if jcStandby c then In (0, None) l /\ exists k, 0 < k /\ In (k, None) l else exists k, In (k, None) l.
Lemma backupRun_exhausted c st l st' : backupRun c st l st' -> blen c st -> exhausted c l -> concat (bjQueues st') = [].
Proof.
  intros R L H. apply concat_nil. intros i q E. unfold exhausted in H. pose proof (backupRun_done c st l st' R L) as D. unfold lineDone in D. destruct (jcStandby c).
  - destruct H as [H0 (k & Hk & H)]. destruct i as [|i]; [eapply D; [exact H0|exact E|auto]|eapply D; [exact H|exact E|right; split; lia]].
  - destruct H as (k & H). eapply D; eauto.
Qed.
Lemma lex_size c a b : R_ (backupLex c) a b -> (jcBundle c = true -> jcBundleLimit c < mfSize a /\ jcBundleLimit c < mfSize b) -> mfSize b <= mfSize a.
Proof.
  unfold R_, backupLex, lexIf at 1. intros H Hb. assert (Ea : bflag c a = false /\ bflag c b = false).
  { unfold bflag. destruct (jcBundle c); [|split; reflexivity]. destruct (Hb eq_refl). split; cbn; apply Z.leb_gt; assumption. }
  destruct Ea as [Ea Eb]. rewrite Ea, Eb in H. change (0 ?= 0) with Eq in H. cbv iota in H. unfold lex, lexIf in H. destruct (Z.compare_spec (mfSize b) (mfSize a)); [lia|lia|congruence].
Qed.
