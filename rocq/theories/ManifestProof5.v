From Verif Require Import Base Str ConvertModel NumModel NumSpec NumProof EncodeModel EncodeProof ArchiveIdModel ArchiveIdSpec ArchiveIdProof JsonModel JsonSpec JsonProof JsonProof2 JsonProof3 JsonProof4 JsonProof8
  InfoModel InfoSpec InfoProof2 InfoProof3 ManifestPackModel ManifestPackSpec ManifestPackProof ManifestPackProof2 ManifestModel ManifestSpec ManifestProof ManifestProof2 ManifestProof3 ManifestProof4.
From Coq Require Import Permutation Sorting.Sorted.
Open Scope Z_scope.

(** * Sections of objects *)
Section Objects.
Variable sc : bool.
Notation cb := (loadCallback sc).

Lemma feed_targets l ts : Forall2 (fun t q => fst q = mtName t /\ jsonObject (targetFields t) = Ok (snd q) /\ valueText (snd q) /\
    forall ld, loadTarget ld (mtName t) (snd q) = Ok (setLdTargets ld (ldTargets ld ++ [savedTarget t]))) l ts ->
  forall ld, feed cb ld (tag sBackupTarget ts) = Ok (setLdTargets ld (ldTargets ld ++ map savedTarget l)).
Proof.
  induction 1 as [|t q l ts (E & _ & _ & H) _ IH]; intros ld; [cbn; rewrite app_nil_r; now destruct ld|].
  cbn [tag map feed]. change (loadCallback sc ld sBackupTarget ?k ?v) with (loadTarget ld k v). rewrite E, H. cbn [bind]. fold (tag sBackupTarget ts). rewrite IH.
  destruct ld; norm. now rewrite <- app_assoc.
Qed.
Lemma feed_dbs l ts : Forall2 (fun t q => fst q = mdName t /\ jsonObject (dbFields t) = Ok (snd q) /\ valueText (snd q) /\
    forall ld, loadDb ld (mdName t) (snd q) = Ok (setLdDbs ld (ldDbs ld ++ [t]))) l ts ->
  forall ld, feed cb ld (tag sDb ts) = Ok (setLdDbs ld (ldDbs ld ++ l)).
Proof.
  induction 1 as [|t q l ts (E & _ & _ & H) _ IH]; intros ld; [cbn; rewrite app_nil_r; now destruct ld|].
  cbn [tag map feed]. change (loadCallback sc ld sDb ?k ?v) with (loadDb ld k v). rewrite E, H. cbn [bind]. fold (tag sDb ts). rewrite IH.
  destruct ld; norm. now rewrite <- app_assoc.
Qed.

(** Owners may be added to the list, nothing else changes. *)
Definition grows (x x' : mctx) : Prop := mxReferences x' = mxReferences x /\ (exists o, mxOwners x' = mxOwners x ++ o) /\ sameDefaults x x'.
Lemma grows_refl x : grows x x. Proof. split; [reflexivity|]. split; [exists []; now rewrite app_nil_r|]. repeat split. Qed.
Lemma grows_trans a b c : grows a b -> grows b c -> grows a c.
Proof.
  intros (A1 & (o & A2) & A3) (B1 & (o' & B2) & B3). split; [congruence|]. split; [exists (o ++ o'); now rewrite B2, A2, app_assoc|]. eapply same_trans; eassumption.
Qed.
Lemma grows_cache x o : grows x (ownerCache x o).
Proof.
  destruct o as [s|]; [|apply grows_refl]. cbn [ownerCache]. destruct (addMissing_ext (mxOwners x) s) as (e & E & _). split; [reflexivity|]. split; [exists e; exact E|repeat split].
Qed.
Lemma grows_extends x x' : 0 <= mxMode x < 2 ^ 32 -> grows x x' -> extends x x'.
Proof. intros Hm (A1 & A2 & (_ & _ & A3)). split; [exists []; now rewrite app_nil_r|]. split; [exact A2|now rewrite A3]. Qed.
Definition setCtx (ld : mload) (x : mctx) : mload := setLdFiles ld (mkMfiles x (msBase (ldFiles ld)) (msPacks (ldFiles ld))).

Lemma feed_paths sv l ts : Forall2 (fun p q => fst q = mpName p /\ jsonObject (pathFields sv p) = Ok (snd q) /\ valueText (snd q) /\
    forall ld, exists g u, loadPath ld (mpName p) (snd q) = Ok (setLdPaths (cacheOwner (cacheOwner ld g) u) (ldPaths ld ++ [ownPath sv p]))) l ts ->
  forall ld, exists x, grows (msCtx (ldFiles ld)) x /\ feed cb ld (tag sTargetPath ts) = Ok (setLdPaths (setCtx ld x) (ldPaths ld ++ map (ownPath sv) l)).
Proof.
  induction 1 as [|t q l ts (E & _ & _ & H) _ IH]; intros ld; [exists (msCtx (ldFiles ld)); split; [apply grows_refl|]; cbn; rewrite app_nil_r; now destruct ld as [? ? ? ? ? ? ? ? [] ? ? ? ? ? ?]|].
  cbn [tag map feed]. change (loadCallback sc ld sTargetPath ?k ?v) with (loadPath ld k v). rewrite E. destruct (H ld) as (g & u & Eg). rewrite Eg. cbn [bind]. fold (tag sTargetPath ts).
  destruct (IH (setLdPaths (cacheOwner (cacheOwner ld g) u) (ldPaths ld ++ [ownPath sv t]))) as (x & Hx & Ex). exists x. split.
  - eapply grows_trans; [|exact Hx]. destruct ld as [? ? ? ? ? ? ? ? [] ? ? ? ? ? ?]. cbn. eapply grows_trans; apply grows_cache.
  - rewrite Ex. destruct ld as [? ? ? ? ? ? ? ? [] ? ? ? ? ? ?]. unfold setCtx, cacheOwner. norm. now rewrite <- app_assoc.
Qed.
Lemma feed_links sv l ts : Forall2 (fun p q => fst q = mlName p /\ jsonObject (linkFields sv p) = Ok (snd q) /\ valueText (snd q) /\
    forall ld, exists g u, loadLink ld (mlName p) (snd q) = Ok (setLdLinks (cacheOwner (cacheOwner ld g) u) (ldLinks ld ++ [ownLink sv p]))) l ts ->
  forall ld, exists x, grows (msCtx (ldFiles ld)) x /\ feed cb ld (tag sTargetLink ts) = Ok (setLdLinks (setCtx ld x) (ldLinks ld ++ map (ownLink sv) l)).
Proof.
  induction 1 as [|t q l ts (E & _ & _ & H) _ IH]; intros ld; [exists (msCtx (ldFiles ld)); split; [apply grows_refl|]; cbn; rewrite app_nil_r; now destruct ld as [? ? ? ? ? ? ? ? [] ? ? ? ? ? ?]|].
  cbn [tag map feed]. change (loadCallback sc ld sTargetLink ?k ?v) with (loadLink ld k v). rewrite E. destruct (H ld) as (g & u & Eg). rewrite Eg. cbn [bind]. fold (tag sTargetLink ts).
  destruct (IH (setLdLinks (cacheOwner (cacheOwner ld g) u) (ldLinks ld ++ [ownLink sv t]))) as (x & Hx & Ex). exists x. split.
  - eapply grows_trans; [|exact Hx]. destruct ld as [? ? ? ? ? ? ? ? [] ? ? ? ? ? ?]. cbn. eapply grows_trans; apply grows_cache.
  - rewrite Ex. destruct ld as [? ? ? ? ? ? ? ? [] ? ? ? ? ? ?]. unfold setCtx, cacheOwner. norm. now rewrite <- app_assoc.
Qed.

(** * Files *)
Definition xSentinel : mctx := mkMctx [] [] (Some sentinel) (Some sentinel) sentinelMode.
Definition linv (s : mfiles) (l : list mfile) : Prop :=
  sameDefaults xSentinel (msCtx s) /\ (msBase s <> -1 \/ l = []) /\ timeOk (msBase s) /\
  Forall2 (fun p f => forall x', extends (msCtx s) x' -> manifestFileUnpack x' (msBase s) p = Ok (stored xSentinel x' f)) (msPacks s) l.
Lemma stored_from x x' f : sameDefaults xSentinel x -> stored x x' f = stored xSentinel x' f.
Proof. intros (H1 & H2 & H3). unfold stored. now rewrite H1, H2, H3. Qed.
Lemma add_ok s l f : linv s l -> fileRange f -> 0 <= mfTimestamp f -> (forall r, mfReference f = Some r -> In r (mxReferences (msCtx s))) ->
  Z.of_nat (length (mxReferences (msCtx s))) + Z.of_nat (length (mxOwners (msCtx s))) + 2 < 2 ^ 32 ->
  exists s', manifestFileAdd s f = Ok s' /\ linv s' (l ++ [f]) /\ mxReferences (msCtx s') = mxReferences (msCtx s) /\ (length (mxOwners (msCtx s')) <= length (mxOwners (msCtx s)) + 2)%nat.
Proof.
  intros (Hs & Hb & Ht & HF) Hfr Hft Hrf Hlen. unfold manifestFileAdd. cbv zeta.
  assert (Hmode' : 0 <= mxMode (msCtx s) < 2 ^ 32) by (destruct Hs as (_ & _ & ->); cbn; unfold sentinelMode, two32; lia).
  destruct (cache_ok (msCtx s) (mfUser f) Hmode') as (A1 & A2 & A3 & A4 & A5 & A6). set (x1 := ownerCache (msCtx s) (mfUser f)) in *.
  assert (Hm1 : 0 <= mxMode x1 < 2 ^ 32) by (destruct A2 as (_ & _ & ->); exact Hmode').
  destruct (cache_ok x1 (mfGroup f) Hm1) as (B1 & B2 & B3 & B4 & B5 & B6). set (x2 := ownerCache x1 (mfGroup f)) in *.
  assert (Hnk : namesKnown x2 f).
  { unfold namesKnown, lenOk. rewrite B3, A3. split; [lia|]. split; [lia|]. split; [exact Hrf|]. split; [intros u E; apply B5; auto|exact B4]. }
  destruct (pack_ok x2 (msBase s) f) as (p & Ep & Up); [apply (fileRange_ok _ Hmode'); [exact Hfr|now apply base_ok]|exact Hnk|].
  assert (Hd2 : sameDefaults xSentinel x2) by (eapply same_trans; [exact Hs|]; eapply same_trans; eassumption).
  rewrite Ep. cbn [bind]. eexists. split; [reflexivity|]. unfold linv. cbn [msCtx msBase msPacks]. split; [|split; [now rewrite B3, A3|lia]].
  split; [exact Hd2|]. split; [left; apply (base_set _ Hmode'); right; lia|]. split; [now apply base_ok|]. apply Forall2_app.
  - destruct Hb as [Hb|Hb].
    + eapply Forall2_impl; [|exact HF]. intros p0 f0 Hg x' Hx. unfold baseTimeSet. replace (msBase s =? -1) with false by lia. apply Hg. eapply extends_trans; [|exact Hx]. eapply extends_trans; eassumption.
    + subst l. inversion HF. constructor.
  - constructor; [|constructor]. intros x' Hx. rewrite (Up x' Hx). f_equal. now apply stored_from.
Qed.
Lemma loaded_range refs sv f : goodFile refs f -> fileRange (loadedFile sv f) /\ 0 <= mfTimestamp (loadedFile sv f) /\ mfReference (loadedFile sv f) = mfReference f.
Proof.
  intros (_ & L & He & H4 & H5 & H6 & _ & _ & _ & G1 & G2 & G3 & G4 & G5 & G6 & G7 & G8 & G9 & G10). split; [|split; [cbn; lia|reflexivity]].
  assert (Z0 : u64 0) by (unfold u64; lia).
  unfold fileRange, fileOk, timeOk, loadedFile. cbn [mfName mfErrorList mfSha1 mfRepoSha1 mfMode mfBundleId mfBundleOffset mfBlockSize mfBlockChecksumSize mfBlockMapSize mfSize mfSizeOriginal mfSizeRepo mfTimestamp].
  split; [|lia]. split; [exact L|]. split; [destruct (mfChecksumPage f); [|exact I]; destruct (mfErrorList f); [apply He|exact I]|].
  split; [destruct (mfSize f =? 0); [reflexivity|]; destruct (mfSha1 f); [apply H4|exact I]|]. split; [destruct (mfRepoSha1 f); [apply H5|exact I]|].
  split; [destruct (mfMode f =? svFileMode sv); unfold sentinelMode, two32; lia|]. split; [exact G1|]. split; [destruct (mfBundleId f =? 0); assumption|].
  split; [exact G3|]. split; [exact G4|]. split; [destruct (mfBlockSize f =? 0); assumption|]. split; [destruct (mfBlockSize f =? 0); assumption|].
  split; [exact G7|]. split; [exact G8|]. split; [exact G9|]. lia.
Qed.
Lemma feed_files sv refs l ts : Forall2 (fun f q => fst q = mfName f /\ jsonObject (fileFields sv f) = Ok (snd q) /\ valueText (snd q) /\
    forall ld, midLoad ld -> loadFile sc ld (mfName f) (snd q) = (let* files := manifestFileAdd (ldFiles ld) (loadedFile sv f) in Ok (setLdFiles ld files))) l ts ->
  Forall (goodFile refs) l ->
  forall ld done, ldReferenceFound ld = true -> linv (ldFiles ld) done -> mxReferences (msCtx (ldFiles ld)) = refs ->
    Z.of_nat (length refs) + Z.of_nat (length (mxOwners (msCtx (ldFiles ld)))) + 2 * Z.of_nat (length l) < 2 ^ 32 ->
    exists s, feed cb ld (tag sTargetFile ts) = Ok (setLdFiles ld s) /\ linv s (done ++ map (loadedFile sv) l) /\ mxReferences (msCtx s) = refs.
Proof.
  induction 1 as [|f q l ts (E & _ & _ & H) _ IH]; intros Hg ld done Hr Hi Href Hlen; [exists (ldFiles ld); split; [now destruct ld|]; cbn; rewrite app_nil_r; auto|].
  inversion Hg as [|? ? Hf Hg']; subst. cbn [tag map feed]. change (loadCallback sc ld sTargetFile ?k ?v) with (loadFile sc ld k v). rewrite E, H by (destruct Hi as ((I1 & I2 & I3) & _); repeat split; assumption).
  destruct (loaded_range _ sv f Hf) as (R1 & R2 & R3). cbn [length] in Hlen.
  destruct (add_ok (ldFiles ld) done (loadedFile sv f) Hi R1 R2) as (s & Es & Hs & Rs & Ls); [rewrite R3; apply Hf|lia|].
  rewrite Es. cbn [bind]. fold (tag sTargetFile ts). destruct (IH Hg' (setLdFiles ld s) (done ++ [loadedFile sv f])) as (s' & E' & Hs' & Rs'); [exact Hr|exact Hs|exact Rs|change (ldFiles (setLdFiles ld s)) with s; lia|].
  exists s'. split; [rewrite E'; destruct ld; reflexivity|]. split; [|exact Rs']. now rewrite <- app_assoc in Hs'.
Qed.

(** * Defaults *)
Lemma feed_fileDefault ld u g m : 0 <= m < 2 ^ 32 ->
  feed cb ld (tag sTargetFileDefault (lineTexts [(kGroup, manifestOwnerVar g); (kMode, JStr (cvtModeToZ m)); (kUser, manifestOwnerVar u)])) = Ok (setDefaults ld u g m).
Proof.
  intros Hm. destruct ld as [l1 l2 l3 l4 l5 l6 l7 l8 [[x1 x2 x3 x4 x5] x6 x7] l9 l10 l11 l12 l13 l14].
  eapply cons_ok; [rewrite (step_line sc sTargetFileDefault kGroup jsonReadVar _ (manifestOwnerVar g) (fun ld v => let* o := manifestOwnerGet v in Ok (setDefaults ld (mxUser (msCtx (ldFiles ld))) o (mxMode (msCtx (ldFiles ld)))))); [rewrite ownerGet_var; reflexivity|reflexivity|rewrite owner_canon; apply reads_var|apply owner_scalar]|].
  eapply cons_ok; [apply (step_line sc sTargetFileDefault kMode readMode _ m (fun ld v => Ok (setDefaults ld (mxUser (msCtx (ldFiles ld))) (mxGroup (msCtx (ldFiles ld))) v))); [reflexivity|now apply reads_mode|exact I]|].
  rewrite (step_line sc sTargetFileDefault kUser jsonReadVar _ (manifestOwnerVar u) (fun ld v => let* o := manifestOwnerGet v in Ok (setDefaults ld o (mxGroup (msCtx (ldFiles ld))) (mxMode (msCtx (ldFiles ld)))))); [rewrite ownerGet_var; reflexivity|reflexivity|rewrite owner_canon; apply reads_var|apply owner_scalar].
Qed.
Lemma ownerDefault_var o : manifestOwnerDefaultGet (manifestOwnerVar o) = Ok (manifestOwnerVar o). Proof. destruct o; reflexivity. Qed.
Lemma feed_pathDefault ld u g m : 0 <= m < 2 ^ 32 ->
  feed cb ld (tag sTargetPathDefault (lineTexts [(kGroup, manifestOwnerVar g); (kMode, JStr (cvtModeToZ m)); (kUser, manifestOwnerVar u)])) =
  Ok (setLdPathUser (setLdPathMode (setLdPathGroup ld (Some (manifestOwnerVar g))) m) (Some (manifestOwnerVar u))).
Proof.
  intros Hm.
  eapply cons_ok; [rewrite (step_line sc sTargetPathDefault kGroup jsonReadVar _ (manifestOwnerVar g) (fun ld v => let* d := manifestOwnerDefaultGet v in Ok (setLdPathGroup ld (Some d)))); [rewrite ownerDefault_var; reflexivity|reflexivity|rewrite owner_canon; apply reads_var|apply owner_scalar]|].
  eapply cons_ok; [apply (step_line sc sTargetPathDefault kMode readMode _ m (fun ld v => Ok (setLdPathMode ld v))); [reflexivity|now apply reads_mode|exact I]|].
  rewrite (step_line sc sTargetPathDefault kUser jsonReadVar _ (manifestOwnerVar u) (fun ld v => let* d := manifestOwnerDefaultGet v in Ok (setLdPathUser ld (Some d)))); [rewrite ownerDefault_var; reflexivity|reflexivity|rewrite owner_canon; apply reads_var|apply owner_scalar].
Qed.
Lemma feed_linkDefault ld u g :
  feed cb ld (tag sTargetLinkDefault (lineTexts [(kGroup, manifestOwnerVar g); (kUser, manifestOwnerVar u)])) =
  Ok (setLdLinkUser (setLdLinkGroup ld (Some (manifestOwnerVar g))) (Some (manifestOwnerVar u))).
Proof.
  eapply cons_ok; [rewrite (step_line sc sTargetLinkDefault kGroup jsonReadVar _ (manifestOwnerVar g) (fun ld v => let* d := manifestOwnerDefaultGet v in Ok (setLdLinkGroup ld (Some d)))); [rewrite ownerDefault_var; reflexivity|reflexivity|rewrite owner_canon; apply reads_var|apply owner_scalar]|].
  rewrite (step_line sc sTargetLinkDefault kUser jsonReadVar _ (manifestOwnerVar u) (fun ld v => let* d := manifestOwnerDefaultGet v in Ok (setLdLinkUser ld (Some d)))); [rewrite ownerDefault_var; reflexivity|reflexivity|rewrite owner_canon; apply reads_var|apply owner_scalar].
Qed.
End Objects.

Lemma mode_default a m : (if isSome (whenO (negb (a =? m)) a) then orElse (whenO (negb (a =? m)) a) 0 else m) = a.
Proof. destruct (Z.eqb_spec a m); cbn; congruence. Qed.
Lemma pathDefaults_ok u g fm m l : let sv := mkMsave (manifestOwnerVar u) (manifestOwnerVar g) fm m in
  forall x, exists x', grows x x' /\ pathDefaults (Some (manifestOwnerVar g)) (Some (manifestOwnerVar u)) m x (map (ownPath sv) l) = Ok (l, x').
Proof.
  intros sv. induction l as [|p l IH]; intros x; [exists x; split; [apply grows_refl|reflexivity]|].
  cbn [map pathDefaults]. unfold ownPath at 1. cbv zeta. cbn [svGroup svUser svPathMode sv mpGroup mpUser mpMode mpName].
  pose proof (ownerVarEq_eq (mpGroup p) g) as Eg. pose proof (ownerVarEq_eq (mpUser p) u) as Eu. unfold defaultOwner. rewrite !ownerGet_var. rewrite mode_default.
  destruct (ownerVarEq (manifestOwnerVar (mpGroup p)) (manifestOwnerVar g)), (ownerVarEq (manifestOwnerVar (mpUser p)) (manifestOwnerVar u));
    cbn [negb whenO isSome orElse bind];
    [set (x1 := ownerCache (ownerCache x g) u)|set (x1 := ownerCache x g)|set (x1 := ownerCache x u)|set (x1 := x)];
    destruct (IH x1) as (x' & Hx & E); exists x'; (split; [eapply grows_trans; [|exact Hx]; unfold x1; first [apply grows_refl|apply grows_cache|eapply grows_trans; apply grows_cache]|]);
    rewrite E; cbn [bind]; try rewrite <- (Eg eq_refl); try rewrite <- (Eu eq_refl); destruct p; reflexivity.
Qed.
Lemma linkDefaults_ok u g fm m l : let sv := mkMsave (manifestOwnerVar u) (manifestOwnerVar g) fm m in
  forall x, exists x', grows x x' /\ linkDefaults (Some (manifestOwnerVar g)) (Some (manifestOwnerVar u)) x (map (ownLink sv) l) = Ok (l, x').
Proof.
  intros sv. induction l as [|p l IH]; intros x; [exists x; split; [apply grows_refl|reflexivity]|].
  cbn [map linkDefaults]. unfold ownLink at 1. cbv zeta. cbn [svGroup svUser svPathMode sv mlGroup mlUser mlDestination mlName].
  pose proof (ownerVarEq_eq (mlGroup p) g) as Eg. pose proof (ownerVarEq_eq (mlUser p) u) as Eu. unfold defaultOwner. rewrite !ownerGet_var.
  destruct (ownerVarEq (manifestOwnerVar (mlGroup p)) (manifestOwnerVar g)), (ownerVarEq (manifestOwnerVar (mlUser p)) (manifestOwnerVar u));
    cbn [negb whenO isSome orElse bind];
    [set (x1 := ownerCache (ownerCache x g) u)|set (x1 := ownerCache x g)|set (x1 := ownerCache x u)|set (x1 := x)];
    destruct (IH x1) as (x' & Hx & E); exists x'; (split; [eapply grows_trans; [|exact Hx]; unfold x1; first [apply grows_refl|apply grows_cache|eapply grows_trans; apply grows_cache]|]);
    rewrite E; cbn [bind]; try rewrite <- (Eg eq_refl); try rewrite <- (Eu eq_refl); destruct p; reflexivity.
Qed.

(** * Order *)
Lemma Forall2_insert {A B} (R : A -> B -> Prop) (ka : A -> str) (kb : B -> str) : (forall a b, R a b -> ka a = kb b) ->
  forall a b l m, R a b -> Forall2 R l m -> Forall2 R (insertBy ka strLeb a l) (insertBy kb strLeb b m).
Proof.
  intros Hk a b l m Hab H. induction H as [|x y l m Hxy H IH]; cbn; [constructor; [exact Hab|constructor]|]. rewrite (Hk _ _ Hab), (Hk _ _ Hxy).
  destruct (strLeb (kb b) (kb y)); constructor; auto.
Qed.
Lemma Forall2_sort {A B} (R : A -> B -> Prop) (ka : A -> str) (kb : B -> str) : (forall a b, R a b -> ka a = kb b) ->
  forall l m, Forall2 R l m -> Forall2 R (sortBy ka strLeb l) (sortBy kb strLeb m).
Proof. intros Hk l m H. induction H as [|x y l m Hxy H IH]; cbn; [constructor|]. now apply Forall2_insert. Qed.
Lemma unpack_name x b p f : manifestFileUnpack x b p = Ok f -> packName p = mfName f.
Proof.
  unfold manifestFileUnpack, packName. destruct (readStrPub p) as [[n q]|e|]; cbn [bind]; try discriminate. intros H.
  repeat match type of H with (let* _ := ?e in _) = _ => let y := fresh in destruct e as [y|?|]; cbn [bind] in H; [try destruct y|discriminate H|discriminate H] end.
  all: injection H as <-; reflexivity.
Qed.
