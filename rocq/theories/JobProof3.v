From Verif Require Import Base Str JobModel JobSpec JobProof JobProof2.
From Coq Require Import Sorting.Sorted Sorting.Permutation.
Open Scope Z_scope.

(** * Building the queues *)
Definition holds (P : nat -> mfile -> Prop) (queues : list (list mfile)) : Prop := forall i q, nth_error queues i = Some q -> Forall (P i) q.
Lemma queueAdd_ok queues : forall i f q', queueAdd queues i f = Ok q' ->
  length q' = length queues /\ Permutation (concat q') (f :: concat queues) /\ forall P, holds P queues -> P i f -> holds P q'.
Proof.
  induction queues as [|q queues IH]; intros i f q' E; [discriminate|]. destruct i as [|i]; cbn [queueAdd] in E.
  - injection E as <-. split; [reflexivity|]. split; [cbn; rewrite <- app_assoc; cbn; symmetry; apply Permutation_middle|].
    intros P H Hf j r Ej. destruct j; cbn in Ej; [injection Ej as <-; apply Forall_app; split; [exact (H 0%nat q eq_refl)|auto]|exact (H (S j) r Ej)].
  - destruct (queueAdd queues i f) as [r| |] eqn:Er; try discriminate. cbn [bind] in E. injection E as <-. destruct (IH _ _ _ Er) as (H1 & H2 & H3). split; [cbn; congruence|].
    split; [cbn; rewrite H2; symmetry; apply Permutation_middle|]. intros P H Hf j x Ej. destruct j; cbn in Ej; [injection Ej as <-; exact (H 0%nat q eq_refl)|].
    apply (H3 (fun n => P (S n))) with (i := j); [|exact Hf|exact Ej]. intros m y Em. exact (H (S m) y Em).
Qed.
Lemma queueAdd_total queues : forall i f, (i < length queues)%nat -> exists q', queueAdd queues i f = Ok q'.
Proof.
  induction queues as [|q queues IH]; intros i f H; [cbn in H; lia|]. destruct i; cbn [queueAdd]; [eauto|]. destruct (IH i f) as (r & ->); [cbn in H; lia|]. cbn. eauto.
Qed.
Lemma targetFind_range name ts i : targetFind name ts = Some i -> (i < length ts)%nat.
Proof. revert i. induction ts as [|t ts IH]; intros i; cbn; [discriminate|]. destruct (strBeginsWith name t); [intros E; injection E as <-; lia|]. destruct (targetFind name ts); [|discriminate]. cbn. intros E. injection E as <-. specialize (IH _ eq_refl). lia. Qed.
Lemma holds_repeat P n : holds P (repeat [] n).
Proof. intros i q E. apply nth_error_In, repeat_spec in E. subst. constructor. Qed.
Lemma concat_repeat_nil n : concat (repeat (@nil mfile) n) = []. Proof. induction n; auto. Qed.
Lemma concat_map_sort cmp (l : list (list mfile)) : Permutation (concat (map (sortCmp cmp) l)) (concat l).
Proof. induction l as [|q l IH]; cbn; [reflexivity|]. apply Permutation_app; [apply sortCmp_perm|exact IH]. Qed.
Lemma holds_sort P cmp l : holds P l -> holds P (map (sortCmp cmp) l).
Proof. intros H i q E. rewrite nth_error_map in E. destruct (nth_error l i) as [x|] eqn:Ex; [|discriminate]. injection E as <-. eapply Permutation_Forall; [symmetry; apply sortCmp_perm|exact (H i x Ex)]. Qed.

Definition total (l : list mfile) (size : mfile -> Z) : Z := fold_right (fun f z => size f + z) 0 l.
Lemma restore_fold ts files : forall queues size, length queues = length ts -> holds (fun i f => targetFind (mfName f) ts = Some i) queues ->
  match foldRes (restoreQueueFile ts) (queues, size) files with
  | Ok (q', s') => length q' = length ts /\ Permutation (concat q') (files ++ concat queues) /\ holds (fun i f => targetFind (mfName f) ts = Some i) q' /\ s' = size + total files mfSize /\
                   Forall (fun f => targetFind (mfName f) ts <> None) files
  | Err e => e = EFormat /\ Exists (fun f => targetFind (mfName f) ts = None) files
  | UB => False
  end.
Proof.
  induction files as [|f files IH]; intros queues size L H; cbn [foldRes].
  - split; [exact L|]. split; [reflexivity|]. split; [exact H|]. split; [cbn; lia|constructor].
  - unfold restoreQueueFile at 1. destruct (targetFind (mfName f) ts) as [i|] eqn:Et; [|cbn; split; [reflexivity|now left]].
    destruct (queueAdd_total queues i f) as (q' & Eq); [rewrite L; now apply targetFind_range in Et|]. rewrite Eq. cbn [bind]. apply queueAdd_ok in Eq as (L' & P' & H').
    specialize (IH q' (size + mfSize f) ltac:(congruence) (H' _ H Et)). destruct (foldRes _ _ files) as [[q2 s2]|e|]; [|destruct IH as [-> IH]; split; [reflexivity|now right]|exact IH].
    destruct IH as (I1 & I2 & I3 & I4 & I5). split; [exact I1|]. split; [rewrite I2, P'; cbn; symmetry; apply Permutation_middle|]. split; [exact I3|]. split; [cbn [total fold_right]; fold (total files mfSize); lia|]. constructor; [congruence|exact I5].
Qed.
Lemma restore_queues targets files : match restoreProcessQueue targets files with
  | Ok (queues, size) => (0 < length queues)%nat /\ Permutation (concat queues) files /\ holds (fun i f => targetFind (mfName f) (targetList targets) = Some i) queues /\
      Forall (StronglySorted (R_ restoreLex)) queues /\ size = total files mfSize
  | Err e => e = EFormat /\ Exists (fun f => targetFind (mfName f) (targetList targets) = None) files
  | UB => False
  end.
Proof.
  unfold restoreProcessQueue. set (ts := targetList targets). pose proof (restore_fold ts files (repeat [] (length ts)) 0 ltac:(now rewrite repeat_length) (holds_repeat _ _)) as K.
  destruct (foldRes _ _ files) as [[q s]|e|]; cbn [bind]; [|exact K|exact K]. destruct K as (K1 & K2 & K3 & K4 & _). rewrite concat_repeat_nil, app_nil_r in K2. rewrite map_length, K1.
  split; [cbn; lia|]. split; [now rewrite concat_map_sort|]. split; [now apply holds_sort|]. split; [|lia]. apply Forall_map, Forall_forall. intros x _. apply restore_sorted.
Qed.

Definition bplace (c : jobConf) (match_ : str -> bool) (ts : list str) (i : nat) (f : mfile) : Prop :=
  mfCopy f = true /\
  if jcStandby c then (if filePrimary match_ (mfName f) then i = 0%nat else exists j, i = S j /\ targetFind (mfName f) ts = Some j)
  else targetFind (mfName f) ts = Some i.
Definition qlen (c : jobConf) (ts : list str) : nat := (length ts + if jcStandby c then 1 else 0)%nat.
Definition needsTarget (c : jobConf) (match_ : str -> bool) (ts : list str) (f : mfile) : Prop :=
  mfCopy f = true /\ (jcStandby c && filePrimary match_ (mfName f) = false) /\ targetFind (mfName f) ts = None.
Lemma backup_fold c m ts files : forall queues size tot control, length queues = qlen c ts -> holds (bplace c m ts) queues ->
  match foldRes (backupQueueFile c m ts) (queues, size, tot, control) files with
  | Ok (q', s', t', c') => length q' = qlen c ts /\ Permutation (concat q') (filter mfCopy files ++ concat queues) /\ holds (bplace c m ts) q' /\ s' = size + total (filter mfCopy files) mfSizeOriginal /\
      t' = tot + Z.of_nat (length (filter mfCopy files)) /\ c' = control || existsb (fun f => strEqb (mfName f) pgControl) (filter mfCopy files)
  | Err e => e = EAssert /\ Exists (needsTarget c m ts) files
  | UB => False
  end.
Proof.
  induction files as [|f files IH]; intros queues size tot control L H; cbn [foldRes].
  - cbn. split; [exact L|]. split; [reflexivity|]. split; [exact H|]. split; [lia|]. split; [lia|now rewrite orb_false_r].
  - unfold backupQueueFile at 1. cbn [filter]. destruct (mfCopy f) eqn:Ec; cbn [negb].
    2:{ cbn [bind]. specialize (IH queues size tot control L H). destruct (foldRes _ _ files) as [[[[q s] t] k]|e|]; [exact IH|destruct IH as [-> IH]; split; [reflexivity|now right]|exact IH]. }
    assert (K : (exists i q', (if jcStandby c && filePrimary m (mfName f) then queueAdd queues 0 f else match targetFind (mfName f) ts with None => Err EAssert | Some i => queueAdd queues (i + if jcStandby c then 1 else 0)%nat f end) = Ok q' /\
                   queueAdd queues i f = Ok q' /\ bplace c m ts i f) \/
                ((if jcStandby c && filePrimary m (mfName f) then queueAdd queues 0 f else match targetFind (mfName f) ts with None => Err EAssert | Some i => queueAdd queues (i + if jcStandby c then 1 else 0)%nat f end) = Err EAssert /\ needsTarget c m ts f)).
    { unfold bplace, needsTarget, qlen in *. destruct (jcStandby c) eqn:Es; cbn [andb].
      - destruct (filePrimary m (mfName f)).
        + left. destruct (queueAdd_total queues 0 f) as (q' & Eq); [lia|]. exists 0%nat, q'. auto.
        + destruct (targetFind (mfName f) ts) as [i|] eqn:Et; [|right; auto]. left. destruct (queueAdd_total queues (i + 1) f) as (q' & Eq); [apply targetFind_range in Et; lia|]. exists (i + 1)%nat, q'.
          split; [exact Eq|]. split; [exact Eq|]. split; [exact Ec|]. exists i. split; [lia|reflexivity].
      - destruct (targetFind (mfName f) ts) as [i|] eqn:Et; [|right; auto]. left. destruct (queueAdd_total queues (i + 0) f) as (q' & Eq); [apply targetFind_range in Et; lia|]. exists (i + 0)%nat, q'.
        split; [exact Eq|]. split; [exact Eq|]. split; [exact Ec|]. f_equal. lia. }
    destruct K as [(i & q' & E1 & E2 & Hb)|[E1 Hn]]; rewrite E1; cbn [bind]; [|split; [reflexivity|now left]]. apply queueAdd_ok in E2 as (L' & P' & H').
    specialize (IH q' (size + mfSizeOriginal f) (tot + 1) (control || strEqb (mfName f) pgControl) ltac:(congruence) (H' _ H Hb)).
    destruct (foldRes _ _ files) as [[[[q2 s2] t2] k2]|e|]; [|destruct IH as [-> IH]; split; [reflexivity|now right]|exact IH]. destruct IH as (I1 & I2 & I3 & I4 & I5 & I6).
    split; [exact I1|]. split; [rewrite I2, P'; cbn; symmetry; apply Permutation_middle|]. split; [exact I3|]. split; [cbn [total fold_right]; fold (total (filter mfCopy files) mfSizeOriginal); lia|]. cbn [length existsb]. split; [lia|]. now rewrite I6, orb_assoc.
Qed.
Lemma backup_queues c m online targets files : match backupProcessQueue c m online targets files with
  | Ok (queues, size) => (if jcStandby c then 1 else 0) + 1 <= Z.of_nat (length queues) /\ Permutation (concat queues) (filter mfCopy files) /\ holds (bplace c m (targetList targets)) queues /\
      Forall (StronglySorted (R_ (backupLex c))) queues /\ size = total (filter mfCopy files) mfSizeOriginal /\ filter mfCopy files <> [] /\ (online = true -> Exists (fun f => mfName f = pgControl) (filter mfCopy files))
  | Err e => (e = EAssert /\ Exists (needsTarget c m (targetList targets)) files) \/
             (e = EFileMissing /\ (filter mfCopy files = [] \/ (online = true /\ ~ Exists (fun f => mfName f = pgControl) (filter mfCopy files))))
  | UB => False
  end.
Proof.
  unfold backupProcessQueue. set (ts := targetList targets). fold (qlen c ts). pose proof (backup_fold c m ts files (repeat [] (qlen c ts)) 0 0 false ltac:(now rewrite repeat_length) (holds_repeat _ _)) as K.
  destruct (foldRes _ _ files) as [[[[q s] t] k]|e|]; cbn [bind]; [|now left|exact K]. destruct K as (K1 & K2 & K3 & K4 & K5 & K6). rewrite concat_repeat_nil, app_nil_r in K2. cbn [orb] in K6.
  assert (Kc : k = true <-> Exists (fun f => mfName f = pgControl) (filter mfCopy files)).
  { rewrite K6, existsb_exists, Exists_exists. split; intros (x & H1 & H2); exists x; (split; [exact H1|]); now apply strEqb_eq. }
  destruct (negb k && online) eqn:Ek.
  - right. apply andb_true_iff in Ek as [E1 E2]. apply negb_true_iff in E1. split; [reflexivity|]. right. split; [exact E2|]. intros K. apply Kc in K. congruence.
  - destruct (Z.eqb_spec t 0) as [E|E].
    + right. split; [reflexivity|]. left. destruct (filter mfCopy files); [reflexivity|cbn in K5; lia].
    + rewrite map_length, K1. unfold qlen. split; [cbn; destruct (jcStandby c); lia|]. split; [now rewrite concat_map_sort|]. split; [now apply holds_sort|].
      split; [apply Forall_map, Forall_forall; intros x _; apply backup_sorted|]. split; [lia|]. split; [intros K; rewrite K in K5; cbn in K5; lia|]. intros ->. rewrite andb_true_r in Ek. apply negb_false_iff in Ek. now apply Kc.
Qed.
