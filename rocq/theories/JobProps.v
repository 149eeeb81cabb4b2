(** Theorems about the job generators of backup and restore (C36, C37). *)
From Verif Require Import Base Str JobModel JobSpec JobProof JobProof2 JobProof3 JobProof4 JobProof5 JobProof6.
From Coq Require Import Sorting.Sorted Sorting.Permutation.
Open Scope Z_scope.

(** * C36 *)
(** Queues are made exactly of the files to copy: it fails only when a file is in no target, when there is nothing to copy, or when pg_control is missing in an online backup. *)
Theorem C36_queues : forall c m online targets files,
  match backupProcessQueue c m online targets files with
  | Ok (queues, size) =>
      Permutation (concat queues) (filter mfCopy files) /\ size = sizes (filter mfCopy files) /\ filter mfCopy files <> [] /\
      (online = true -> exists f, In f files /\ mfCopy f = true /\ mfName f = pgControl)
  | Err e =>
      (e = EAssert /\ exists f, In f files /\ mfCopy f = true /\ (jcStandby c = true -> ~ primaryOnly m f) /\ forall t, targetPrefixes targets t -> ~ inTarget f t) \/
      (e = EFileMissing /\ (filter mfCopy files = [] \/ (online = true /\ forall f, In f files -> mfCopy f = true -> mfName f <> pgControl)))
  | UB => False
  end.
Proof.
  intros c m online targets files. pose proof (backup_queues c m online targets files) as K. destruct (backupProcessQueue _ _ _ _ _) as [[queues size]|e|]; [| |exact K].
  - destruct K as (_ & K1 & _ & _ & K2 & K3 & K4). repeat split; auto. intros Eo. specialize (K4 Eo). apply Exists_exists in K4 as (f & Hf & En). apply filter_In in Hf as [Hf Ec]. eauto.
  - destruct K as [[-> K]|[-> K]]; [left|right]; (split; [reflexivity|]).
    + apply Exists_exists in K as (f & Hf & Ec & Ep & Et). exists f. split; [exact Hf|]. split; [exact Ec|]. split; [|now apply targetFind_none]. intros Es. rewrite Es in Ep. cbn in Ep. rewrite <- primary_iff. congruence.
    + destruct K as [K|[Eo K]]; [now left|right]. split; [exact Eo|]. intros f Hf Ec En. apply K, Exists_exists. exists f. split; [now apply filter_In|exact En].
Qed.
Print Assumptions C36_queues.

(** Whatever clients ask in whatever order, every request is answered, and there are never more jobs than files. *)
Theorem C36_always_answered : forall c m online targets files queues size clients,
  backupProcessQueue c m online targets files = Ok (queues, size) -> Forall (fun k => 0 <= k) clients ->
  exists l st', backupRun c (mkBackupJobs queues 1) l st' /\ map fst l = clients /\
    (length (filter (fun p => match snd p with Some _ => true | None => false end) l) <= length (filter mfCopy files))%nat.
Proof.
  intros c m online targets files queues size clients E Hc. pose proof (binv_init _ _ _ _ _ _ _ E) as I. destruct (backupRun_total c (mkBackupJobs queues 1) clients) as (l & st' & R & El); [apply I|exact Hc|].
  exists l, st'. split; [exact R|]. split; [exact El|]. rewrite run_length; [|intros k id fs Hin; apply (backupRun_jobs _ _ _ _ _ _ R I _ _ _ Hin)].
  pose proof (backupRun_perm _ _ _ _ R ltac:(apply I)) as P. pose proof (backup_queues c m online targets files) as K. rewrite E in K. destruct K as (_ & K & _). cbn [bjQueues] in P. rewrite K in P. apply Permutation_length in P. rewrite P, app_length. unfold runFiles. lia.
Qed.
Print Assumptions C36_always_answered.

(** No file is ever handed out twice, and none that is not to be copied; once there is no job any more (in a backup from standby: neither for the primary nor for a standby), all files have been handed out. *)
Theorem C36_each_file_once : forall c m online targets files queues size l st',
  backupProcessQueue c m online targets files = Ok (queues, size) -> backupRun c (mkBackupJobs queues 1) l st' ->
  (exists rest, Permutation (filter mfCopy files) (runFiles l ++ rest)) /\
  ((if jcStandby c then In (0, None) l /\ exists k, 0 < k /\ In (k, None) l else exists k, In (k, None) l) -> Permutation (filter mfCopy files) (runFiles l)).
Proof.
  intros c m online targets files queues size l st' E R. pose proof (binv_init _ _ _ _ _ _ _ E) as I. pose proof (backupRun_perm _ _ _ _ R ltac:(apply I)) as P. pose proof (backup_queues c m online targets files) as K. rewrite E in K. destruct K as (_ & K & _).
  cbn [bjQueues] in P. rewrite K in P. split; [eauto|]. intros H. rewrite (backupRun_exhausted c _ _ _ R ltac:(apply I) H), app_nil_r in P. exact P.
Qed.
Print Assumptions C36_each_file_once.

(** A job has files of one target (or of the primary); a job without bundle has one file, which is too large for a bundle; a bundle has only files up to the limit and is closed as soon as its size is reached. In a backup from standby the primary gets exactly the files that only it may copy. *)
Theorem C36_jobs : forall c m online targets files queues size l st' k id fs,
  backupProcessQueue c m online targets files = Ok (queues, size) -> backupRun c (mkBackupJobs queues 1) l st' -> In (k, Some (id, fs)) l ->
  fs <> [] /\
  (forall f g, In f fs -> In g fs -> jcStandby c = true /\ primaryOnly m f /\ primaryOnly m g \/ exists t, targetPrefixes targets t /\ inTarget f t /\ inTarget g t) /\
  (jcStandby c = true -> Forall (fun f => if k =? 0 then primaryOnly m f else ~ primaryOnly m f) fs) /\
  (id = 0 -> length fs = 1%nat /\ (jcBundle c = true -> Forall (fun f => jcBundleLimit c < mfSize f) fs)) /\
  (id <> 0 -> jcBundle c = true /\ Forall (fun f => mfSize f <= jcBundleLimit c) fs /\ forall a x, fs = a ++ [x] -> a = [] \/ sizes a < jcBundleSize c).
Proof. intros c m online targets files queues size l st' k id fs E R Hin. exact (backupRun_jobs _ _ _ _ _ _ R (binv_init _ _ _ _ _ _ _ E) _ _ _ Hin). Qed.
Print Assumptions C36_jobs.

(** Bundles are numbered 1, 2, 3, ... in the order they are handed out. *)
Theorem C36_bundle_ids : forall c m online targets files queues size l st',
  backupProcessQueue c m online targets files = Ok (queues, size) -> backupRun c (mkBackupJobs queues 1) l st' ->
  bundleIds l = map (fun i => 1 + Z.of_nat i) (seq 0 (length (bundleIds l))).
Proof. intros c m online targets files queues size l st' E R. pose proof (binv_init _ _ _ _ _ _ _ E) as I. apply (backupRun_ids _ _ _ _ R); apply I. Qed.
Print Assumptions C36_bundle_ids.

(** Of two files of one line the larger is handed out first if neither is bundled, bundled files come after the others, and a bundle that is smaller than the bundle size is the last job of its line. *)
Theorem C36_order : forall c m online targets files queues size l1 k1 id1 fs1 l2 k2 id2 fs2 l3 st' f g,
  backupProcessQueue c m online targets files = Ok (queues, size) ->
  backupRun c (mkBackupJobs queues 1) (l1 ++ (k1, Some (id1, fs1)) :: l2 ++ (k2, Some (id2, fs2)) :: l3) st' ->
  In f fs1 -> In g fs2 -> sameLine c m targets f g ->
  (id1 = 0 -> id2 = 0 -> mfSize g <= mfSize f) /\ (id1 <> 0 -> id2 <> 0 /\ jcBundleSize c <= sizes fs1).
Proof.
  intros c m online targets files queues size l1 k1 id1 fs1 l2 k2 id2 fs2 l3 st' f g E R Hf Hg Hl. pose proof (binv_init _ _ _ _ _ _ _ E) as I.
  pose proof (backupRun_jobs _ _ _ _ _ _ R I k1 id1 fs1 ltac:(apply in_or_app; right; now left)) as (_ & _ & _ & A1 & A2).
  pose proof (backupRun_jobs _ _ _ _ _ _ R I k2 id2 fs2 ltac:(apply in_or_app; right; right; apply in_or_app; right; now left)) as (_ & _ & _ & B1 & B2).
  destruct (backupRun_pair _ _ _ _ _ _ _ _ _ _ _ _ _ _ _ _ R I Hf Hg Hl) as [H1 H2]. split.
  - intros E1 E2. destruct (A1 E1) as [_ A3]. destruct (B1 E2) as [_ B3]. apply (lex_size c); [exact H1|]. intros Eb. specialize (A3 Eb). specialize (B3 Eb). rewrite Forall_forall in A3, B3. auto.
  - intros N. split; [|auto]. intros E2. destruct (A2 N) as (Eb & A3 & _). destruct (B1 E2) as [_ B3]. specialize (B3 Eb). rewrite Forall_forall in A3, B3. specialize (A3 _ Hf). specialize (B3 _ Hg). pose proof (lex_flag c f g Eb H1 A3). lia.
Qed.
Print Assumptions C36_order.

(** The comparator is a total order of files with different names, so that a sorted queue is the same whatever algorithm qsort() has. *)
Theorem C36_sort_unique : forall c l l', NoDup (map mfName l) -> Permutation l l' ->
  StronglySorted (fun a b => backupCmp c a b <> Gt) l' -> totalOrder (fun f => In f l) (backupCmp c) /\ l' = sortCmp (backupCmp c) l.
Proof. intros c l l' H P K. split; [now apply backup_total|]. apply sort_unique; auto; [now apply backup_total|]. now apply NoDup_map_inv in H. Qed.
Print Assumptions C36_sort_unique.

(** * C37 *)
Theorem C37_queues : forall targets files,
  match restoreProcessQueue targets files with
  | Ok (queues, size) => Permutation (concat queues) files /\ size = fold_right (fun f z => mfSize f + z) 0 files
  | Err e => e = EFormat /\ exists f, In f files /\ forall t, targetPrefixes targets t -> ~ inTarget f t
  | UB => False
  end.
Proof.
  intros targets files. pose proof (restore_queues targets files) as K. destruct (restoreProcessQueue _ _) as [[queues size]|e|]; [| |exact K].
  - destruct K as (_ & K1 & _ & _ & K2). auto.
  - destruct K as [-> K]. split; [reflexivity|]. apply Exists_exists in K as (f & Hf & Et). exists f. split; [exact Hf|now apply targetFind_none].
Qed.
Print Assumptions C37_queues.

Theorem C37_always_answered : forall targets files queues size clients,
  restoreProcessQueue targets files = Ok (queues, size) -> Forall (fun k => 0 <= k) clients ->
  exists l st', restoreRun queues l st' /\ map fst l = clients /\
    (length (filter (fun p => match snd p with Some _ => true | None => false end) l) <= length files)%nat.
Proof.
  intros targets files queues size clients E Hc. pose proof (rinv_init _ _ _ _ E) as I. destruct (restoreRun_total queues clients) as (l & st' & R & El); [apply I|exact Hc|].
  exists l, st'. split; [exact R|]. split; [exact El|]. rewrite run_length; [|intros k id fs Hin; apply (restoreRun_jobs _ _ _ _ R I _ _ _ Hin)].
  pose proof (restoreRun_perm _ _ _ R ltac:(apply I)) as P. pose proof (restore_queues targets files) as K. rewrite E in K. destruct K as (_ & K & _). rewrite K in P. apply Permutation_length in P. rewrite P, app_length. unfold runFiles. lia.
Qed.
Print Assumptions C37_always_answered.

(** No file is handed out twice, and all have been when there is no job any more. *)
Theorem C37_each_file_once : forall targets files queues size l st',
  restoreProcessQueue targets files = Ok (queues, size) -> restoreRun queues l st' ->
  (exists rest, Permutation files (runFiles l ++ rest)) /\ (In None (map snd l) -> Permutation files (runFiles l)).
Proof.
  intros targets files queues size l st' E R. pose proof (rinv_init _ _ _ _ E) as I. pose proof (restoreRun_perm _ _ _ R ltac:(apply I)) as P. pose proof (restore_queues targets files) as K. rewrite E in K. destruct K as (_ & K & _). rewrite K in P.
  split; [eauto|]. intros H. rewrite (restoreRun_done _ _ _ R ltac:(apply I) H), app_nil_r in P. exact P.
Qed.
Print Assumptions C37_each_file_once.

(** A job is one file on its own, or files of one bundle of one backup and of one target; the files with content come in the order of the bundle. *)
Theorem C37_jobs : forall targets files queues size l st' k key fs,
  restoreProcessQueue targets files = Ok (queues, size) -> restoreRun queues l st' -> In (k, Some (key, fs)) l ->
  fs <> [] /\ (exists t, targetPrefixes targets t /\ Forall (fun f => inTarget f t) fs) /\
  (key = 0 -> length fs = 1%nat) /\ Forall (fun f => mfBundleId f = key) fs /\ (key <> 0 -> exists ref, Forall (fun f => mfReference f = ref) fs) /\
  (key <> 0 -> StronglySorted (fun f g => mfBundleOffset f <= mfBundleOffset g) (filter (fun f => negb (mfSize f =? 0)) fs)).
Proof. intros targets files queues size l st' k key fs E R Hin. exact (restoreRun_jobs _ _ _ _ R (rinv_init _ _ _ _ E) _ _ _ Hin). Qed.
Print Assumptions C37_jobs.

(** Two files with content of the same bundle of the same backup and of the same target are never in different jobs: a bundle is opened once for each target. *)
Theorem C37_bundle_once : forall targets files queues size l1 k1 a1 l2 k2 a2 l3 st' f g,
  restoreProcessQueue targets files = Ok (queues, size) -> restoreRun queues (l1 ++ (k1, a1) :: l2 ++ (k2, a2) :: l3) st' ->
  In f (answerFiles a1) -> In g (answerFiles a2) -> sameTarget targets f g -> mfSize f <> 0 -> mfSize g <> 0 ->
  mfBundleId f = mfBundleId g -> mfReference f = mfReference g -> mfBundleId f = 0.
Proof. intros targets files queues size l1 k1 a1 l2 k2 a2 l3 st' f g E R. exact (restoreRun_bundle targets _ _ _ _ _ _ _ _ _ _ _ R (rinv_init _ _ _ _ E)). Qed.
Print Assumptions C37_bundle_once.

(** The comparator is a total order of files that are not at the same place. *)
Theorem C37_sort_unique : forall l l',
  (forall a b, In a l -> In b l -> (if mfBundleId a =? 0 then mfName a = mfName b else mfBundleId a = mfBundleId b /\ mfReference a = mfReference b /\ mfBundleOffset a = mfBundleOffset b) -> a = b) ->
  NoDup l -> Permutation l l' -> StronglySorted (fun a b => restoreCmp a b <> Gt) l' -> totalOrder (fun f => In f l) restoreCmp /\ l' = sortCmp restoreCmp l.
Proof. intros l l' H Hn P K. split; [now apply restore_total|]. apply sort_unique; auto. now apply restore_total. Qed.
Print Assumptions C37_sort_unique.

(** * Non-trivial cases *)
Definition jexF (n : Z) size bundle off ref := mkMfile (pgDataPrefix ++ [n]) true size size 0 ref bundle off.
Definition jexCtl := mkMfile pgControl true 8 8 0 None 0 0.
Definition jexConf sb := mkJobConf sb true 10 5.
Definition jexFiles := [jexF 97 100 0 0 None; jexF 98 3 0 0 None; mkMfile (pgDataPrefix ++ [99]) false 3 3 0 None 0 0; jexF 100 4 0 0 None; jexF 101 5 0 0 None; jexCtl; jexF 102 200 0 0 None; jexF 103 1 0 0 None].
Definition jexMatch (s : str) : bool := match s with _ :: _ :: _ :: _ :: _ :: _ :: _ :: _ :: c :: _ => 100 <=? c | _ => false end.
(* large files first, then bundles 1 and 2 *)
Example C36_nontrivial : exists queues size st',
  backupProcessQueue (jexConf false) jexMatch true [] jexFiles = Ok (queues, size) /\
  backupRun (jexConf false) (mkBackupJobs queues 1)
    [(3, Some (0, [jexF 102 200 0 0 None])); (0, Some (0, [jexF 97 100 0 0 None])); (1, Some (0, [jexCtl])); (1, Some (1, [jexF 98 3 0 0 None; jexF 100 4 0 0 None; jexF 101 5 0 0 None]));
     (2, Some (2, [jexF 103 1 0 0 None])); (0, None)] st'.
Proof. do 3 eexists. split; [vm_compute; reflexivity|]. repeat (eapply br_cons; [lia|vm_compute; reflexivity|]). apply br_nil. Qed.
(* the primary is asked for pg_control and the files that do not match *)
Example C36_nontrivial_standby : exists queues size st',
  backupProcessQueue (jexConf true) jexMatch true [] jexFiles = Ok (queues, size) /\
  backupRun (jexConf true) (mkBackupJobs queues 1)
    [(0, Some (0, [jexF 97 100 0 0 None])); (1, Some (0, [jexF 102 200 0 0 None])); (0, Some (0, [jexCtl])); (0, Some (1, [jexF 98 3 0 0 None]));
     (0, None); (2, Some (2, [jexF 100 4 0 0 None; jexF 101 5 0 0 None; jexF 103 1 0 0 None])); (2, None)] st'.
Proof. do 3 eexists. split; [vm_compute; reflexivity|]. repeat (eapply br_cons; [lia|vm_compute; reflexivity|]). apply br_nil. Qed.
Example C37_nontrivial : exists queues size st',
  restoreProcessQueue [] [jexF 97 1 2 30 None; jexF 98 9 0 0 None; jexF 99 1 1 0 (Some [65]); jexF 100 1 2 10 None; jexF 101 1 1 0 None; jexF 102 0 0 0 None] = Ok (queues, size) /\
  restoreRun queues [(1, Some (0, [jexF 98 9 0 0 None])); (0, Some (1, [jexF 99 1 1 0 (Some [65])])); (0, Some (1, [jexF 101 1 1 0 None]));
     (0, Some (2, [jexF 100 1 2 10 None; jexF 97 1 2 30 None])); (1, Some (0, [jexF 102 0 0 0 None])); (0, None)] st'.
Proof. do 3 eexists. split; [vm_compute; reflexivity|]. repeat (eapply rr_cons; [lia|vm_compute; reflexivity|]). apply rr_nil. Qed.
