From Verif Require Import Base Str JobModel JobSpec JobProof JobProof2 JobProof3 JobProof4.
From Coq Require Import Sorting.Sorted Sorting.Permutation.
Open Scope Z_scope.

(** * One bundle *)
Lemma sizes_app a b : sizes (a ++ b) = sizes a + sizes b.
Proof. unfold sizes. induction a as [|x a IH]; cbn; [reflexivity|]. rewrite IH. lia. Qed.
Lemma take_started c queue : forall size b l r, backupTake c true true size queue = (b, l, r) ->
  b = true /\ (forall a x, l = a ++ [x] -> a = [] \/ size + sizes a < jcBundleSize c) /\ (r <> [] -> jcBundleSize c <= size + sizes l).
Proof.
  induction queue as [|f q IH]; intros size b l r E; cbn [backupTake] in E.
  - injection E as <- <- <-. split; [reflexivity|]. split; [intros a x E; now destruct a|congruence].
  - cbn [negb orb] in E. destruct (Z.leb_spec (jcBundleSize c) (size + mfSizeOriginal f)).
    + injection E as <- <- <-. split; [reflexivity|]. split; [|intros _; cbn; lia]. intros a x E. destruct a as [|y a]; [now left|]. destruct a; discriminate.
    + destruct (backupTake c true true _ q) as [[b' l'] r'] eqn:E'. injection E as <- <- <-. apply IH in E' as (-> & H1 & H2). split; [reflexivity|]. split.
      * intros a x E. destruct a as [|y a]; [now left|]. right. injection E as <- E. destruct (H1 _ _ E) as [->|K]; cbn [sizes fold_right]; [lia|]. fold (sizes a). lia.
      * intros N. specialize (H2 N). cbn [sizes fold_right]. fold (sizes l'). lia.
Qed.
Definition flagSorted (c : jobConf) (q : list mfile) : Prop := StronglySorted (fun f g => mfSize f <= jcBundleLimit c -> mfSize g <= jcBundleLimit c) q.
Lemma takeJob_shape c q b l r : (jcBundle c = true -> flagSorted c q) -> backupTakeJob c q = Some (b, l, r) ->
  (b = true -> jcBundle c = true /\ Forall (fun f => mfSize f <= jcBundleLimit c) l /\ (forall a x, l = a ++ [x] -> a = [] \/ sizes a < jcBundleSize c) /\ (r <> [] -> jcBundleSize c <= sizes l)) /\
  (b = false -> length l = 1%nat /\ (jcBundle c = true -> Forall (fun f => jcBundleLimit c < mfSize f) l)).
Proof.
  unfold backupTakeJob. intros Hs E. destruct (backupTake c (jcBundle c) false 0 q) as [[b' l'] r'] eqn:E'. destruct l' as [|f0 l0]; [discriminate|]. injection E as -> <- ->.
  destruct q as [|f q]; [discriminate|]. cbn [backupTake] in E'. destruct (jcBundle c) eqn:Eb; cbn [andb] in E'.
  - specialize (Hs eq_refl). inversion Hs as [|? ? _ Hf]; subst. destruct (Z.leb_spec (mfSize f) (jcBundleLimit c)) as [Hl|Hl]; cbn [negb orb] in E'.
    + destruct (Z.leb_spec (jcBundleSize c) (0 + mfSizeOriginal f)).
      * injection E' as <- <- <- <-. split; [intros _|discriminate]. split; [reflexivity|]. split; [auto|]. split; [|intros _; cbn; lia]. intros a x E. destruct a as [|y a]; [now left|]. destruct a; discriminate.
      * destruct (backupTake c true true _ q) as [[b' l'] r'] eqn:E2. injection E' as <- <- <- <-. pose proof (backupTake_split _ _ _ _ _ _ _ _ E2) as [Eq _]. apply take_started in E2 as (-> & H1 & H2). split; [intros _|discriminate].
        split; [reflexivity|]. split; [constructor; [exact Hl|]; rewrite Eq in Hf; apply Forall_app in Hf as [Hf _]; eapply Forall_impl; [|exact Hf]; cbn; auto|]. split.
        -- intros a x E. destruct a as [|y a]; [now left|]. right. injection E as <- E. destruct (H1 _ _ E) as [->|K]; cbn [sizes fold_right]; [lia|]. fold (sizes a). lia.
        -- intros N. specialize (H2 N). cbn [sizes fold_right]. fold (sizes l'). lia.
    + injection E' as <- <- <- <-. split; [discriminate|]. intros _. split; [reflexivity|]. auto.
  - injection E' as <- <- <- <-. split; [discriminate|]. intros _. split; [reflexivity|discriminate].
Qed.

(** * One request *)
Definition backupStep (c : jobConf) (st : backupJobs) (k : Z) (a : option (Z * list mfile)) (st' : backupJobs) : Prop :=
  (a = None /\ st' = st /\ (forall i q, nth_error (bjQueues st) i = Some q -> (if jcStandby c then (k = 0 /\ i = 0%nat) \/ (0 < k /\ (0 < i)%nat) else True) -> q = [])) \/
  exists i q q' b l, a = Some (if b : bool then bjBundleId st else 0, l) /\ nth_error (bjQueues st) i = Some q /\ backupTakeJob c q = Some (b, l, q') /\
    st' = mkBackupJobs (queueSet (bjQueues st) i q') (if b then bjBundleId st + 1 else bjBundleId st) /\ (jcStandby c = true -> if k =? 0 then i = 0%nat else (0 < i)%nat).
Lemma backup_step c st k : 0 <= k -> (if jcStandby c then 1 else 0) + 1 <= Z.of_nat (length (bjQueues st)) -> exists a st', backupJobCallback c st k = Ok (a, st') /\ backupStep c st k a st'.
Proof.
  intros Hk Hl. unfold backupJobCallback. destruct st as [queues bid]. cbn [bjQueues bjBundleId] in *. set (off := if jcStandby c && (0 <? k) then 1 else 0). set (tot := Z.of_nat (length queues) - off).
  assert (Hoff : 0 <= off <= 1 /\ 0 < tot) by (unfold tot, off; destruct (jcStandby c), (0 <? k); cbn [andb]; lia). destruct Hoff as [Ho Ht].
  destruct (jcStandby c && (k =? 0)) eqn:Ep; cbn [negb andb].
  - apply andb_true_iff in Ep as [Es Ek]. apply Z.eqb_eq in Ek. subst k. unfold off in *. rewrite Es in *. change (0 <? 0) with false in *. cbn [andb] in *. clear off Ho. cbn [jobScan]. change (Z.to_nat (0 + 0)) with 0%nat.
    destruct queues as [|q queues]; [cbn in Hl; lia|]. cbn [nth_error]. destruct (backupTakeJob c q) as [[[b l] q']|] eqn:Et.
    + cbn [bind]. eexists _, _. split; [reflexivity|]. right. exists 0%nat, q, q', b, l. repeat split; auto.
    + rewrite Z.eqb_refl. cbn [bind]. eexists _, _. split; [reflexivity|]. left. split; [reflexivity|]. split; [reflexivity|]. cbn [bjQueues]. rewrite Es. intros i x Ei [[_ ->]|[? _]]; [|lia]. cbn in Ei. injection Ei as <-. now apply backupTakeJob_none in Et.
  - rewrite (proj2 (Z.eqb_neq tot 0)) by lia. assert (Hs : 0 <= k mod tot < tot) by (apply Z.mod_pos_bound; lia).
    destruct (scan_spec (backupTakeJob c) (backupTakeJob_none c) k tot off (k mod tot) ltac:(lia) Hs ltac:(lia) queues (S (length queues)) ltac:(lia) 0 ltac:(lia) ltac:(lia) ltac:(intros; lia)) as [(i & q & [b l] & q' & Hi & Eq & Et & E)|(H & E)];
      rewrite at_0 in E by exact Hs; rewrite E; cbn [bind].
    + eexists _, _. split; [reflexivity|]. right. exists (Z.to_nat (i + off)), q, q', b, l. cbn [bjQueues bjBundleId]. split; [reflexivity|]. split; [exact Eq|]. split; [exact Et|]. split; [reflexivity|].
      intros Es. rewrite Es in Ep. cbn in Ep. rewrite Ep. apply Z.eqb_neq in Ep. unfold off. rewrite Es. destruct (Z.ltb_spec 0 k); cbn [andb]; lia.
    + eexists _, _. split; [reflexivity|]. left. split; [reflexivity|]. split; [reflexivity|]. cbn [bjQueues]. intros i q Eq Hq. assert (i < length queues)%nat by (apply nth_error_Some; congruence).
      assert (Hio : 0 <= Z.of_nat i - off).
      { unfold off. destruct (jcStandby c); cbn [andb] in *; [|lia]. apply Z.eqb_neq in Ep. destruct (Z.ltb_spec 0 k); lia. }
      specialize (H (Z.of_nat i - off) ltac:(lia)). unfold qnth in H. replace (Z.of_nat i - off + off) with (Z.of_nat i) in H by lia. rewrite Nat2Z.id in H. congruence.
Qed.
Definition blen (c : jobConf) (st : backupJobs) : Prop := (if jcStandby c then 1 else 0) + 1 <= Z.of_nat (length (bjQueues st)).
Lemma backup_step_inv c st k a st' : 0 <= k -> blen c st -> backupJobCallback c st k = Ok (a, st') -> backupStep c st k a st'.
Proof. intros Hk Hl E. destruct (backup_step c st k Hk Hl) as (a1 & s1 & E1 & H). rewrite E in E1. injection E1 as <- <-. exact H. Qed.
Lemma backupStep_perm c st k a st' : backupStep c st k a st' -> Permutation (concat (bjQueues st)) (answerFiles a ++ concat (bjQueues st')) /\ length (bjQueues st') = length (bjQueues st).
Proof.
  intros [(-> & -> & E)|(i & q & q' & b & l & -> & E1 & E2 & -> & _)]; [now split|]. cbn [bjQueues]. apply backupTakeJob_split in E2 as (-> & _). split; [apply (queueSet_perm _ _ _ _ _ E1); reflexivity|].
  apply queueSet_length, nth_error_Some. congruence.
Qed.
Definition binv (c : jobConf) (m : str -> bool) (ts : list str) (st : backupJobs) : Prop :=
  blen c st /\ holds (bplace c m ts) (bjQueues st) /\ Forall (StronglySorted (R_ (backupLex c))) (bjQueues st) /\ 1 <= bjBundleId st.
Lemma binv_step c m ts st k a st' : binv c m ts st -> backupStep c st k a st' -> binv c m ts st'.
Proof.
  intros (H1 & H2 & H3 & H4) K. pose proof (backupStep_perm _ _ _ _ _ K) as [_ L]. destruct K as [(-> & -> & _)|(i & q & q' & b & l & -> & E1 & E2 & -> & _)]; [repeat split; auto|].
  apply backupTakeJob_split in E2 as (E2 & _). split; [unfold blen in *; lia|]. cbn [bjQueues bjBundleId]. split; [eapply holds_set; eauto|]. split; [eapply sorted_set; eauto|destruct b; lia].
Qed.

(** * Runs *)
Lemma backupRun_perm c st l st' : backupRun c st l st' -> blen c st -> Permutation (concat (bjQueues st)) (runFiles l ++ concat (bjQueues st')).
Proof.
  induction 1 as [st|st k a st1 l st2 Hk E H IH]; intros L; [reflexivity|]. apply backup_step_inv in E; [|exact Hk|exact L]. apply backupStep_perm in E as [P L1]. cbn. rewrite P, IH by (unfold blen in *; lia). now rewrite app_assoc.
Qed.
Lemma backupRun_len c st l st' : backupRun c st l st' -> blen c st -> length (bjQueues st') = length (bjQueues st).
Proof.
  induction 1 as [st|st k a st1 l st2 Hk E H IH]; intros L; [reflexivity|]. apply backup_step_inv in E; [|exact Hk|exact L]. apply backupStep_perm in E as [P L1]. rewrite IH by (unfold blen in *; lia). exact L1.
Qed.
Lemma backupRun_total c st clients : blen c st -> Forall (fun k => 0 <= k) clients -> exists l st', backupRun c st l st' /\ map fst l = clients.
Proof.
  revert st. induction clients as [|k clients IH]; intros st L H; [exists [], st; split; [constructor|reflexivity]|]. inversion H as [|? ? Hk H']; subst.
  destruct (backup_step c st k Hk L) as (a & s & E & Hs). apply backupStep_perm in Hs as [_ Ls]. destruct (IH s ltac:(unfold blen in *; lia) H') as (l & s' & R & E').
  exists ((k, a) :: l), s'. split; [econstructor; eauto|cbn; congruence].
Qed.
(* queues only shrink *)
Lemma backupRun_sub c st l st' : backupRun c st l st' -> blen c st -> forall i q, nth_error (bjQueues st) i = Some q -> exists x q', nth_error (bjQueues st') i = Some q' /\ q = x ++ q'.
Proof.
  induction 1 as [st|st k a st1 l st2 Hk E H IH]; intros L i q Eq; [exists [], q; auto|]. apply backup_step_inv in E; [|exact Hk|exact L]. pose proof (backupStep_perm _ _ _ _ _ E) as [_ L1].
  assert (exists x q', nth_error (bjQueues st1) i = Some q' /\ q = x ++ q') as (x & q1 & E1 & ->).
  { destruct E as [(-> & -> & _)|(j & r & r' & b & y & -> & E1 & E2 & -> & _)]; [exists [], q; auto|]. cbn [bjQueues]. rewrite queueSet_nth by (apply nth_error_Some; congruence). apply backupTakeJob_split in E2 as (E2 & _).
    destruct (Nat.eqb_spec i j) as [Eij|_]; [|exists [], q; auto]. exists y, r'. split; [reflexivity|]. congruence. }
  destruct (IH ltac:(unfold blen in *; lia) _ _ E1) as (y & q' & E2 & ->). exists (x ++ y), q'. split; [exact E2|apply app_assoc].
Qed.
Definition lineDone (c : jobConf) (k : Z) (i : nat) : Prop := if jcStandby c then (k = 0 /\ i = 0%nat) \/ (0 < k /\ (0 < i)%nat) else True.
Lemma backupRun_done c st l st' : backupRun c st l st' -> blen c st -> forall k, In (k, None) l -> forall i q, nth_error (bjQueues st') i = Some q -> lineDone c k i -> q = [].
Proof.
  induction 1 as [st|st k a st1 l st2 Hk E H IH]; intros L k0 Hn i q Eq Hd; [destruct Hn|]. apply backup_step_inv in E; [|exact Hk|exact L]. pose proof (backupStep_perm _ _ _ _ _ E) as [P L1]. assert (blen c st1) by (unfold blen in *; lia).
  destruct Hn as [Hn|Hn]; [|eapply IH; eauto]. injection Hn as -> ->. destruct E as [(_ & -> & E)|(j & r & q' & b & x & E1 & _)]; [|discriminate].
  assert (exists q0, nth_error (bjQueues st) i = Some q0) as (q0 & E0).
  { destruct (nth_error (bjQueues st) i) eqn:E0; [eauto|]. apply nth_error_None in E0. rewrite <- (backupRun_len _ _ _ _ H L) in E0. assert (i < length (bjQueues st2))%nat by (apply nth_error_Some; congruence). lia. }
  pose proof (E _ _ E0 Hd) as ->. destruct (backupRun_sub _ _ _ _ H L _ _ E0) as (x & q' & E1 & E2). symmetry in E2. apply app_eq_nil in E2 as [_ ->]. congruence.
Qed.
Lemma backupRun_app c st l1 l2 st' : backupRun c st (l1 ++ l2) st' -> exists s, backupRun c st l1 s /\ backupRun c s l2 st'.
Proof. revert st. induction l1 as [|[k a] l1 IH]; intros st H; [exists st; split; [constructor|exact H]|]. cbn in H. inversion H; subst. destruct (IH _ H7) as (s & R1 & R2). exists s. split; [econstructor; eauto|exact R2]. Qed.
Lemma binv_run c m ts st l st' : backupRun c st l st' -> binv c m ts st -> binv c m ts st'.
Proof. induction 1 as [|st k a st1 l st2 Hk E H IH]; intros I; [exact I|]. apply IH. eapply binv_step; [exact I|]. eapply backup_step_inv; eauto. apply I. Qed.

(* what a job is *)
Definition backupJobOk (c : jobConf) (m : str -> bool) (targets : list (Z * str)) (k id : Z) (l : list mfile) : Prop :=
  l <> [] /\ (forall f g, In f l -> In g l -> jcStandby c = true /\ primaryOnly m f /\ primaryOnly m g \/ exists t, targetPrefixes targets t /\ inTarget f t /\ inTarget g t) /\
  (jcStandby c = true -> Forall (fun f => if k =? 0 then primaryOnly m f else ~ primaryOnly m f) l) /\
  (id = 0 -> length l = 1%nat /\ (jcBundle c = true -> Forall (fun f => jcBundleLimit c < mfSize f) l)) /\
  (id <> 0 -> jcBundle c = true /\ Forall (fun f => mfSize f <= jcBundleLimit c) l /\ forall a x, l = a ++ [x] -> a = [] \/ sizes a < jcBundleSize c).
Lemma lex_flag c a b : jcBundle c = true -> R_ (backupLex c) a b -> mfSize a <= jcBundleLimit c -> mfSize b <= jcBundleLimit c.
Proof.
  unfold R_, backupLex, bflag, lexIf at 1. intros -> H Ha. cbn [andb] in H. rewrite (proj2 (Z.leb_le _ _) Ha) in H. destruct (Z.leb_spec (mfSize b) (jcBundleLimit c)); [assumption|]. cbn in H. congruence.
Qed.
Lemma sorted_flag c q : jcBundle c = true -> StronglySorted (R_ (backupLex c)) q -> flagSorted c q.
Proof. intros Eb. induction 1 as [|x q H IH Hf]; constructor; [exact IH|]. eapply Forall_impl; [|exact Hf]. intros y. now apply lex_flag. Qed.
Lemma bplace_line c m targets i f g : bplace c m (targetList targets) i f -> bplace c m (targetList targets) i g ->
  jcStandby c = true /\ primaryOnly m f /\ primaryOnly m g \/ exists t, targetPrefixes targets t /\ inTarget f t /\ inTarget g t.
Proof.
  assert (K : forall j, targetFind (mfName f) (targetList targets) = Some j -> targetFind (mfName g) (targetList targets) = Some j -> exists t, targetPrefixes targets t /\ inTarget f t /\ inTarget g t).
  { intros j Hf Hg. apply targetFind_in in Hf as (t & H1 & H2). apply targetFind_in in Hg as (t' & H3 & H4). exists t. split; [apply targetList_in; now apply nth_error_In in H1|]. split; [exact H2|congruence]. }
  intros [_ Hf] [_ Hg]. destruct (jcStandby c).
  - destruct (filePrimary m (mfName f)) eqn:Pf, (filePrimary m (mfName g)) eqn:Pg.
    + left. split; [reflexivity|]. split; now apply primary_iff.
    + destruct Hg as (j & -> & _). discriminate.
    + destruct Hf as (j & -> & _). discriminate.
    + destruct Hf as (j & -> & Hf), Hg as (j' & E & Hg). injection E as <-. right. eauto.
  - right. eauto.
Qed.
Lemma backupStep_ok c m targets st k id l st' : 0 <= k -> binv c m (targetList targets) st -> backupStep c st k (Some (id, l)) st' -> backupJobOk c m targets k id l.
Proof.
  intros Hk (H1 & H2 & H3 & H4) [(E & _)|(i & q & q' & b & l' & E & E1 & E2 & -> & Hi)]; [discriminate|]. injection E as -> <-. pose proof (backupTakeJob_split _ _ _ _ _ E2) as (Eq & Hne). specialize (H2 _ _ E1). pose proof H2 as H2q. rewrite Eq in H2.
  apply Forall_app in H2 as [H2 _]. rewrite Forall_forall in H2. rewrite Forall_forall in H3. pose proof (H3 _ (nth_error_In _ _ E1)) as Hs. destruct (takeJob_shape c q b l q' (fun Eb => sorted_flag c q Eb Hs) E2) as [S1 S2].
  split; [exact Hne|]. split; [intros f g Hf Hg; apply (bplace_line c m targets i); auto|]. split.
  { intros Es. specialize (Hi Es). apply Forall_forall. intros f Hf. specialize (H2 _ Hf) as [_ Hp]. rewrite Es in Hp. destruct (Z.eqb_spec k 0).
    - apply primary_iff. destruct (filePrimary m (mfName f)); [reflexivity|]. destruct Hp as (j & -> & _). discriminate.
    - rewrite <- primary_iff. destruct (filePrimary m (mfName f)); [lia|discriminate]. }
  destruct b; (split; [intros E; try lia|intros E; try lia]).
  - destruct (S1 eq_refl) as (A & B & C & _). auto.
  - now apply S2.
Qed.
Lemma backupRun_jobs c m targets st l st' : backupRun c st l st' -> binv c m (targetList targets) st -> forall k id fs, In (k, Some (id, fs)) l -> backupJobOk c m targets k id fs.
Proof.
  induction 1 as [st|st k a st1 l st2 Hk E H IH]; intros I k0 id fs Hin; [destruct Hin|]. apply backup_step_inv in E; [|exact Hk|apply I]. destruct Hin as [Hin|Hin]; [|eapply IH; eauto; eapply binv_step; eauto].
  injection Hin as -> ->. eapply backupStep_ok; eauto.
Qed.
Lemma backupRun_ids c st l st' : backupRun c st l st' -> blen c st -> 1 <= bjBundleId st -> bundleIds l = map (fun i => bjBundleId st + Z.of_nat i) (seq 0 (length (bundleIds l))).
Proof.
  induction 1 as [st|st k a st1 l st2 Hk E H IH]; intros L B; [reflexivity|]. apply backup_step_inv in E; [|exact Hk|exact L]. pose proof (backupStep_perm _ _ _ _ _ E) as [_ L1]. assert (L' : blen c st1) by (unfold blen in *; lia).
  cbn [bundleIds flat_map snd]. fold (bundleIds l). destruct E as [(-> & -> & _)|(i & q & q' & b & x & -> & E1 & E2 & -> & _)]; [now apply IH|]. cbn [bjBundleId] in *. destruct b.
  - rewrite (proj2 (Z.eqb_neq _ _)) by lia. cbn [app length seq map]. f_equal; [lia|]. specialize (IH L' ltac:(lia)). rewrite IH at 1. rewrite <- seq_shift, map_map. apply map_ext. intros n. lia.
  - rewrite Z.eqb_refl. cbn [app]. now apply IH.
Qed.

(* the order of two jobs of one line *)
Lemma line_same c m targets i j f g : bplace c m (targetList targets) i f -> bplace c m (targetList targets) j g -> sameLine c m targets f g -> i = j.
Proof.
  unfold bplace, sameLine. intros [_ Hf] [_ Hg] H. destruct (jcStandby c).
  - rewrite <- !primary_iff in H. destruct (filePrimary m (mfName f)), (filePrimary m (mfName g)).
    + congruence.
    + destruct H as [[_ ?]|[? _]]; congruence.
    + destruct H as [[? _]|[_ [? _]]]; congruence.
    + destruct H as [[? _]|(_ & _ & H)]; [discriminate|]. apply same_find in H. destruct Hf as (a & -> & Hf), Hg as (b & -> & Hg). congruence.
  - apply same_find in H. congruence.
Qed.
Lemma backupRun_pair c m targets st l1 k1 id1 fs1 l2 k2 id2 fs2 l3 st' f g :
  backupRun c st (l1 ++ (k1, Some (id1, fs1)) :: l2 ++ (k2, Some (id2, fs2)) :: l3) st' -> binv c m (targetList targets) st ->
  In f fs1 -> In g fs2 -> sameLine c m targets f g -> R_ (backupLex c) f g /\ (id1 <> 0 -> jcBundleSize c <= sizes fs1).
Proof.
  intros R I Hf Hg St. apply backupRun_app in R as (s & R1 & R2). apply (binv_run _ _ _ _ _ _ R1) in I. clear R1 st. inversion R2 as [|? ? ? s1 ? ? Hk E R3]; subst.
  apply backup_step_inv in E; [|exact Hk|apply I]. pose proof (binv_step _ _ _ _ _ _ _ I E) as I1. destruct E as [(E & _)|(i & q & q' & b & x & E0 & E1 & E2 & -> & _)]; [discriminate|]. injection E0 as -> <-.
  pose proof (backupTakeJob_split _ _ _ _ _ E2) as (-> & Hne). destruct I as (L & Hh & Hs & HB). destruct I1 as (L1 & Hh1 & _). assert (Hg' : In g (concat (queueSet (bjQueues s) i q'))).
  { apply backupRun_perm in R3; [|exact L1]. cbn [bjQueues] in R3. eapply Permutation_in; [symmetry; exact R3|]. apply in_or_app. left. unfold runFiles. rewrite flat_map_app. apply in_or_app. right. cbn. apply in_or_app. now left. }
  apply inQueues_concat in Hg' as (j & r & Ej & Hr). cbn [bjQueues] in Hh1.
  assert (Fj : bplace c m (targetList targets) j g) by (pose proof (Hh1 _ _ Ej) as K; rewrite Forall_forall in K; auto).
  assert (Fi : bplace c m (targetList targets) i f) by (pose proof (Hh _ _ E1) as K; rewrite Forall_forall in K; apply K, in_or_app; now left).
  assert (i = j) as <- by (eapply line_same; eauto). rewrite queueSet_nth in Ej by (apply nth_error_Some; congruence). rewrite Nat.eqb_refl in Ej. injection Ej as <-.
  rewrite Forall_forall in Hs. apply nth_error_In, Hs in E1. split; [eapply sorted_across; eauto|]. intros N. destruct (takeJob_shape c _ b fs1 q' (fun Eb => sorted_flag c _ Eb E1) E2) as [S1 _].
  destruct b; [|congruence]. apply (S1 eq_refl). destruct q'; [destruct Hr|discriminate].
Qed.
