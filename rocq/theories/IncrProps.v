(** Properties C38 and C39: references of incremental backups resolve, and changed files are copied. *)
From Coq Require Import Permutation.
From Verif Require Import Base Str IncrModel IncrSpec IncrProof IncrProof2 IncrProof3 IncrProof4.
Open Scope Z_scope.

(** C38: after any sequence of backups and expirations every file of every backup resolves. *)
Theorem C38_references_resolve : forall sha1 cfgOf w r m f, history sha1 cfgOf w r -> In m w -> In f (mFiles m) -> resolves sha1 cfgOf w r m f.
Proof. intros sha1 cfgOf w r m f H. apply (iFiles _ _ _ _ (history_inv _ _ _ _ H)). Qed.
Print Assumptions C38_references_resolve.

(** The reference list of a backup is that of the prior backup and the backup itself, and all are in the repository. *)
Theorem C38_reference_list : forall sha1 cfgOf w r m, history sha1 cfgOf w r -> In m w ->
  (forall l, In l (mReferences m) -> In l (map mLabel w)) /\
  match mPrior m with
  | None => mReferences m = [mLabel m]
  | Some p => exists mp, In mp w /\ mLabel mp = p /\ mReferences m = mReferences mp ++ [mLabel m] /\ mCompressExt mp = mCompressExt m
  end.
Proof. intros sha1 cfgOf w r m H. apply (iRefs _ _ _ _ (history_inv _ _ _ _ H)). Qed.
Print Assumptions C38_reference_list.

(** Labels and the names in a backup are unique, so that a reference and a name identify a file. *)
Theorem C38_unique : forall sha1 cfgOf w r, history sha1 cfgOf w r -> NoDup (map mLabel w) /\ forall m, In m w -> NoDup (map bfName (mFiles m)).
Proof. intros sha1 cfgOf w r H. split; [apply (iLabels _ _ _ _ (history_inv _ _ _ _ H))|apply (iNames _ _ _ _ (history_inv _ _ _ _ H))]. Qed.
Print Assumptions C38_unique.

(** Two files have the same repository file only if a file ends with .pgbi and nothing is compressed (common/compress/helper.c:38-104 has the extensions). *)
Theorem C38_no_collision : forall cfg m,
  In (mCompressExt m) [[]; [46;103;122]; [46;108;122;52]; [46;122;115;116]; [46;98;122;50]; [46;120;122]] ->
  mCompressExt m <> [] \/ bcBlock cfg = false \/ (forall f x, In f (mFiles m) -> bfName f <> x ++ pgbi) ->
  noCollision cfg m.
Proof.
  intros cfg m Hext H f g Hf Hg E. unfold fileExt in E.
  assert (Hcross : forall f g, In g (mFiles m) -> isBlock cfg f = true -> bfName f ++ pgbi = bfName g ++ mCompressExt m -> False).
  { clear f g Hf Hg E. intros f g Hg Hb E. destruct Hext as [Hx|Hx].
    - rewrite <- Hx, app_nil_r in E. destruct H as [H|[H|H]].
      + congruence.
      + unfold isBlock in Hb. rewrite H in Hb. discriminate.
      + apply (H g (bfName f) Hg). symmetry. exact E.
    - apply (f_equal (@rev Z)) in E. rewrite !rev_app_distr in E. cbn in E.
      repeat destruct Hx as [Hx|Hx]; try contradiction; rewrite <- Hx in E; cbn in E; discriminate. }
  destruct (isBlock cfg f) eqn:Ef, (isBlock cfg g) eqn:Eg.
  - eapply app_inv_tail. exact E.
  - exfalso. eapply Hcross; eauto.
  - exfalso. eapply (Hcross g f); eauto.
  - eapply app_inv_tail. exact E.
Qed.
Print Assumptions C38_no_collision.

(** Examples: a full backup of three files, one of them empty, and an incremental backup after one was changed and another was created, both bundled.
    The checksum is the content itself. *)
Definition iexSha (c : list Z) : list Z := c.
Definition iexCfg (_ : str) : bcfg := mkBcfg (fun _ _ _ c => c) (fun _ _ _ _ => 0) false false.
Definition iexFile (name : Z) (copy : bool) (size ts : Z) (sum : option (list Z)) : bfile :=
  mkBfile [name] copy false false size size ts sum size None None 0 0 0 0 0.
Definition iexEnv (c : option (list Z)) : readEnv := mkReadEnv c c true false false.
Definition iexM (files : list bfile) : manifest := mkManifest [] None [] true false true 0 None [] files.
Definition iexA := iexFile 97 true 2 10 None.
Definition iexB := iexFile 98 false 0 10 (Some []).
Definition iexC := iexFile 99 true 1 10 None.
Definition iexFull := fullManifest (iexM [iexA; iexB; iexC]) false 20 [].
Definition iexFullRun := backupRun iexSha (iexCfg [70]) iexFull [70] None [(1, [(iexA, iexEnv (Some [1;2])); (iexC, iexEnv (Some [3]))])] (fun _ => None).
Definition iexFullM : manifest := match iexFullRun with Ok (m, _) => m | _ => iexM [] end.
Definition iexFullR : repo := match iexFullRun with Ok (_, r) => r | _ => fun _ => None end.
Definition iexC2 := iexFile 99 true 1 30 None.
Definition iexD := iexFile 100 true 1 30 None.
Definition iexIncr := incrManifest (iexM [iexA; iexB; iexC2; iexD]) iexFullM false 40 None.
Definition iexIncrJobs : list (Z * list (bfile * readEnv)) :=
  match filter bfCopy (mFiles iexIncr) with
  | [c; d] => [(1, [(c, iexEnv (Some [4])); (d, iexEnv (Some [5]))])]
  | _ => []
  end.
Definition iexIncrRun := backupRun iexSha (iexCfg [73]) iexIncr [73] None iexIncrJobs iexFullR.
Definition iexIncrM : manifest := match iexIncrRun with Ok (m, _) => m | _ => iexM [] end.
Definition iexIncrR : repo := match iexIncrRun with Ok (_, r) => r | _ => fun _ => None end.

Lemma iexCfgOk : forall l, cfgOk (iexCfg l).
Proof. intros l. split; intros; [reflexivity|]. cbn in H. discriminate. Qed.
Lemma iexJobsOk : forall m l, filter bfCopy (mFiles m) = map fst l -> Forall (fun fe => bfResume (fst fe) = false) l -> jobsOk m [(1, l)].
Proof.
  intros m l H HF. unfold jobsOk. cbn. rewrite app_nil_r, H. split; [apply Permutation_refl|]. split. { repeat constructor; easy. }
  split.
  - intros id l0 [E|[]] Hz. congruence.
  - intros id l0 f env [E|[]] Hf Hr. injection E as <- <-. rewrite Forall_forall in HF. pose proof (HF _ Hf) as H1. cbn in H1. congruence.
Qed.
Lemma iexHistory : history iexSha iexCfg [iexFullM] iexFullR.
Proof.
  refine (h_full _ _ [] (fun _ => None) (iexM [iexA; iexB; iexC]) false 20 [] _ (mFiles iexFull) [70] None
    [(1, [(iexA, iexEnv (Some [1;2])); (iexC, iexEnv (Some [3]))])] iexFullM iexFullR (h_empty _ _ _) (iexCfgOk _) _ eq_refl eq_refl _ _ _ eq_refl _ _ eq_refl).
  - easy.
  - repeat constructor; cbn; intuition discriminate.
  - repeat constructor; cbn; intuition discriminate.
  - repeat constructor; cbn; intuition discriminate.
  - apply C38_no_collision; [left; reflexivity|right; left; reflexivity].
  - apply iexJobsOk; [reflexivity|]. vm_compute. repeat constructor.
Qed.
Lemma iexHistory2 : history iexSha iexCfg [iexIncrM; iexFullM] iexIncrR.
Proof.
  refine (h_incr _ _ [iexFullM] iexFullR (iexM [iexA; iexB; iexC2; iexD]) iexFullM false 40 None _ [73] None iexIncrJobs iexIncrM iexIncrR
    iexHistory (iexCfgOk _) _ _ _ (or_introl eq_refl) eq_refl _ _ eq_refl).
  - cbn. intuition discriminate.
  - repeat constructor; cbn; intuition discriminate.
  - repeat constructor; cbn; intuition discriminate.
  - apply C38_no_collision; [left; reflexivity|right; left; reflexivity].
  - apply iexJobsOk; [reflexivity|]. vm_compute. repeat constructor.
Qed.
Example C38_nontrivial : exists w r m f, history iexSha iexCfg w r /\ In m w /\ In f (mFiles m) /\ bfReference f = Some [70] /\ bfSize f = 2 /\
  r (restorePath m f) = Some [1;2;3].
Proof.
  exists [iexIncrM; iexFullM], iexIncrR, iexIncrM, (nth 0 (mFiles iexIncrM) iexA). split; [exact iexHistory2|]. vm_compute. intuition.
Qed.

(** Without [noCollision] the claim is false: with block incremental and no compression, a and a.pgbi are written to the same file. *)
Definition iexBlkCfg : bcfg := mkBcfg (fun _ _ f c => if 0 <? bfBlockSize f then c ++ [0] else c) (fun _ _ _ _ => 1) false true.
Definition iexBlkA := mkBfile [97] true false false 2 2 10 None 2 None None 0 0 8192 6 0.
Definition iexBlkP := mkBfile ([97] ++ pgbi) true false false 1 1 10 None 1 None None 0 0 0 0 0.
Theorem C38_collision_refuted : exists m jobs m' r' f,
  Forall (builtFile iexSha) (mFiles m) /\ NoDup (map bfName (mFiles m)) /\ cfgOk iexBlkCfg /\ jobsOk m jobs /\
  backupRun iexSha iexBlkCfg m [70] None jobs (fun _ => None) = Ok (m', r') /\ In f (mFiles m') /\ bfSize f <> 0 /\
  ~ contentStored iexSha (fun _ => iexBlkCfg) r' m' f f.
Proof.
  set (jobs := [(0, [(iexBlkA, iexEnv (Some [1;2]))]); (0, [(iexBlkP, iexEnv (Some [3]))])]).
  exists (iexM [iexBlkA; iexBlkP]), jobs.
  destruct (backupRun iexSha iexBlkCfg (iexM [iexBlkA; iexBlkP]) [70] None jobs (fun _ => None)) as [[m' r']| |] eqn:E; try discriminate.
  exists m', r', (nth 0 (mFiles m') iexBlkA). vm_compute in E. injection E as <- <-.
  split. { repeat constructor; cbn; intuition discriminate. }
  split. { repeat constructor; cbn; intuition discriminate. }
  split. { split; intros; cbn in *; [|lia]. unfold isBlock in *. cbn in *. rewrite H0. reflexivity. }
  split.
  { split; [apply Permutation_refl|]. split; [constructor|]. split.
    - intros id l [E|[E|[]]] _; injection E as <- <-; reflexivity.
    - intros id l f env [E|[E|[]]] _ _; injection E as <- <-; reflexivity. }
  split; [reflexivity|]. split; [left; reflexivity|]. split; [discriminate|].
  intros (whole & b & H1 & H2 & H3 & _). vm_compute in H1. injection H1 as <-. subst b. vm_compute in H3. discriminate.
Qed.
Print Assumptions C38_collision_refuted.

(** C39: delta is enabled exactly when it is asked for, a file is from the future, the timeline or the online option changed, or a timestamp went back
    or stayed while the size changed. *)
Theorem C39_delta_enabled : forall m prior delta copyStart start, NoDup (map bfName (mFiles prior)) ->
  mDelta (incrManifest m prior delta copyStart start) = true <->
  delta = true \/ (exists f, In f (mFiles m) /\ copyStart < bfTimestamp f) \/
  (exists a b, start = Some a /\ mArchiveStop prior = Some b /\ firstn 8 a <> firstn 8 b) \/
  mOnline prior <> mOnline m \/
  exists f p, In f (mFiles m) /\ In p (mFiles prior) /\ bfName p = bfName f /\
    (bfTimestamp f < bfTimestamp p \/ bfTimestamp f = bfTimestamp p /\ bfSizeOriginal f <> bfSizeOriginal p).
Proof. exact incr_delta. Qed.
Print Assumptions C39_delta_enabled.

(** A file is not read at all only if it is empty, or delta is off and neither size nor timestamp changed. *)
Theorem C39_not_read : forall m prior delta copyStart start g,
  let m' := incrManifest m prior delta copyStart start in
  In g (mFiles m') -> bfCopy g = false ->
  exists f, In f (mFiles m) /\ bfName f = bfName g /\
    (bfCopy f = false /\ g = f \/
     exists p, In p (mFiles prior) /\ bfName p = bfName g /\ bfSize f = bfSize p /\ bfSize g = bfSize p /\ bfChecksum g = bfChecksum p /\
       (bfSize f = 0 \/ mDelta m' = false /\ bfTimestamp f = bfTimestamp p /\ bfSizeOriginal f = bfSizeOriginal p)).
Proof. exact incr_not_copied. Qed.
Print Assumptions C39_not_read.

(** With delta each file that is not empty is read, and its checksum is compared first if the prior file has the same size. *)
Theorem C39_delta_reads_all : forall sha1 m prior delta copyStart start f,
  let m' := incrManifest m prior delta copyStart start in
  mDelta m' = true -> In f (mFiles m) -> NoDup (map bfName (mFiles m)) -> Forall (builtFile sha1) (mFiles m) -> bfCopy f = true -> bfSize f <> 0 ->
  exists g, In g (mFiles m') /\ bfName g = bfName f /\ bfCopy g = true /\
    (bfDelta g = true <-> exists p, fileFind (bfName f) (mFiles prior) = Some p /\ bfSize p = bfSize f) /\
    (bfDelta g = true -> bfReference g <> None).
Proof. exact incr_with_delta. Qed.
Print Assumptions C39_delta_reads_all.

(** After the backup each file is either a reference, in which case a content with the recorded size and checksum was read or the file was
    not read for the reasons above, or records the size and checksum of the content that was copied, or is empty; and files that are no longer listed were missing. *)
Theorem C39_incremental : forall sha1 cfg m prior delta copyStart start label stop jobs r m'' r',
  let m' := incrManifest m prior delta copyStart start in
  NoDup (map bfName (mFiles m)) -> Forall (builtFile sha1) (mFiles m) -> noCollision cfg m' -> jobsOk m' jobs ->
  backupRun sha1 cfg m' label stop jobs r = Ok (m'', r') ->
  (forall g, In g (mFiles m'') ->
     (exists l f p, bfReference g = Some l /\ In f (mFiles m) /\ bfName f = bfName g /\ In p (mFiles prior) /\ bfName p = bfName g /\
        bfSize g = bfSize p /\ bfChecksum g = bfChecksum p /\
        ((exists f1 env, bfName f1 = bfName g /\ inJob jobs f1 env /\ readSame sha1 env g) \/
         bfSize f = bfSize p /\ (bfSize f = 0 \/ mDelta m' = false /\ bfTimestamp f = bfTimestamp p /\ bfSizeOriginal f = bfSizeOriginal p))) \/
     (bfReference g = None /\ exists f1 env c, bfName f1 = bfName g /\ inJob jobs f1 env /\ readCopy env f1 c /\ bfSize g = zlen c /\ bfChecksum g = Some (sha1 c)) \/
     (bfReference g = None /\ bfSize g = 0 /\ bfChecksum g = Some (sha1 []) /\ exists f, In f (mFiles m) /\ bfName f = bfName g /\ bfSize f = 0)) /\
  (forall f, In f (mFiles m) -> ~ In (bfName f) (map bfName (mFiles m'')) ->
     exists f1 env, bfName f1 = bfName f /\ inJob jobs f1 env /\ (reDelta env = None \/ reCopy env = None)).
Proof. exact incr_run. Qed.
Print Assumptions C39_incremental.

Example C39_nontrivial :
  mDelta iexIncr = false /\ map bfCopy (mFiles iexIncr) = [false; false; true; true] /\
  map bfReference (mFiles iexIncrM) = [Some [70]; None; None; None] /\ map bfChecksum (mFiles iexIncrM) = [Some [1;2]; Some []; Some [4]; Some [5]] /\
  mDelta (incrManifest (iexM [iexFile 97 true 3 10 None]) iexFullM false 40 None) = true.
Proof. vm_compute. repeat split. Qed.
