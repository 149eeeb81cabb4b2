From Verif Require Import Base Str ConvertModel NumModel NumSpec NumProof EncodeModel EncodeProof ArchiveIdModel ArchiveIdSpec ArchiveIdProof JsonModel JsonSpec JsonProof JsonProof2 JsonProof3 JsonProof4 JsonProof8
  InfoModel InfoSpec InfoProof2 InfoProof3 ManifestPackModel ManifestPackSpec ManifestPackProof ManifestPackProof2 ManifestModel ManifestSpec ManifestProof ManifestProof2 ManifestProof3 ManifestProof4 ManifestProof5.
From Coq Require Import Permutation Sorting.Sorted.
Open Scope Z_scope.

Lemma find_name {A} (name : A -> str) l k : In k (map name l) -> exists a, find (fun x => strEqb (name x) k) l = Some a /\ In a l /\ name a = k.
Proof.
  induction l as [|a l IH]; [intros []|]. intros H. cbn [find]. destruct (strEqb (name a) k) eqn:E; [apply strEqb_eq in E; exists a; split; [reflexivity|]; split; [now left|exact E]|].
  destruct H as [H|H]; [rewrite H, strEqb_refl in E; discriminate|]. destruct (IH H) as (b & Eb & Hb & Nb). exists b. split; [exact Eb|]. split; [now right|exact Nb].
Qed.
Lemma view_forall2 s fs : fileView s fs -> Forall2 (fun p f => manifestFileUnpack (msCtx s) (msBase s) p = Ok f) (msPacks s) fs.
Proof.
  intros [Hl Hn]. unfold manifestFile in Hn. revert fs Hl Hn. generalize (msPacks s). intros ps. induction ps as [|p ps IH]; intros [|f fs] Hl Hn; try discriminate; constructor.
  - exact (Hn 0%nat f eq_refl).
  - apply IH; [now injection Hl|]. intros i g Hg. exact (Hn (S i) g Hg).
Qed.
Lemma forall2_view s fs : Forall2 (fun p f => manifestFileUnpack (msCtx s) (msBase s) p = Ok f) (msPacks s) fs -> fileView s fs.
Proof.
  intros H. split; [exact (Forall2_lenE _ _ _ H)|]. intros i f Hf. pose proof (Forall2_nthE _ _ _ H i) as K. unfold manifestFile. rewrite Hf in K.
  destruct (nth_error (msPacks s) i); [exact K|destruct K].
Qed.
Lemma mapR_ok {A B} (f : A -> res B) l m : Forall2 (fun a b => f a = Ok b) l m -> mapR f l = Ok m.
Proof. induction 1 as [|a b l m E H IH]; [reflexivity|]. cbn [mapR]. rewrite E. cbn [bind]. rewrite IH. reflexivity. Qed.
Lemma land_range a b : 0 <= a < 2 ^ 32 -> 0 <= b -> 0 <= Z.land a b < 2 ^ 32.
Proof.
  intros Ha Hb. split; [apply Z.land_nonneg; lia|]. rewrite <- (Z.mod_small a (2 ^ 32)) by lia. rewrite <- Z.land_ones by lia. rewrite <- Z.land_assoc, (Z.land_comm _ b), Z.land_assoc, Z.land_ones by lia.
  apply Z.mod_pos_bound. lia.
Qed.
Lemma sorted_byName {A} (name : A -> str) l l' : Permutation l l' -> NoDup (map name l) -> byName name l (sortBy name strLeb l').
Proof.
  intros P Hn. pose proof (sortBy_perm name strLeb l') as Q. split; [etransitivity; [exact P|apply Permutation_sym, Q]|].
  apply sle_nodup_slt; [|eapply Permutation_NoDup; [apply Permutation_map; etransitivity; [exact P|apply Permutation_sym, Q]|exact Hn]].
  replace (map name (sortBy name strLeb l')) with (strLstSortAsc (map name l')); [apply strLstSortAsc_sorted|]. unfold strLstSortAsc. now apply (sortBy_map name name (fun s => s)).
Qed.

Lemma stored_loaded refs u g fm pm X f : goodFile refs f -> mxUser X = u -> mxGroup X = g -> mxMode X = fm ->
  stored xSentinel X (loadedFile (mkMsave (manifestOwnerVar u) (manifestOwnerVar g) fm pm) f) = savedFile f.
Proof.
  intros (_ & _ & _ & _ & _ & Hm & Hu & Hg & _) Eu Eg Em.
  assert (O : forall o d, o <> Some [64] -> owner (Some sentinel) d (if ownerVarEq (manifestOwnerVar o) (manifestOwnerVar d) then Some sentinel else o) = o).
  { intros o d Ho. pose proof (ownerVarEq_eq o d) as E. destruct (ownerVarEq (manifestOwnerVar o) (manifestOwnerVar d)); [cbn; symmetry; auto|].
    destruct o as [s|]; [|reflexivity]. cbn [owner]. destruct (strEqb s sentinel) eqn:Es; [apply strEqb_eq in Es; subst s; now destruct Ho|reflexivity]. }
  unfold stored, savedFile, loadedFile. cbn [mfName mfCopy mfDelta mfResume mfChecksumPage mfChecksumPageError mfMode mfSha1 mfRepoSha1 mfErrorList mfUser mfGroup mfReference mfBundleId mfBundleOffset mfBlockSize mfBlockChecksumSize mfBlockMapSize mfSize mfSizeOriginal mfSizeRepo mfTimestamp xSentinel mxUser mxGroup mxMode svUser svGroup svFileMode].
  rewrite Eu, Eg, Em, !O by assumption.
  replace (if (if mfMode f =? fm then sentinelMode else mfMode f) =? sentinelMode then fm else if mfMode f =? fm then sentinelMode else mfMode f) with (mfMode f).
  2: { unfold sentinelMode, two32. destruct (Z.eqb_spec (mfMode f) fm); [cbn; assumption|]. destruct (Z.eqb_spec (mfMode f) (4294967296 - 1)); [lia|reflexivity]. }
  f_equal; [destruct (mfBundleId f =? 0)|destruct (mfBlockSize f =? 0)|destruct (mfBlockSize f =? 0)]; reflexivity.
Qed.

Definition scalars (l : list (str * jvar)) : Prop := Forall (fun p => scalarOk (snd p)) l.
Lemma scalars_app a b : scalars a -> scalars b -> scalars (a ++ b). Proof. intros. apply Forall_app. auto. Qed.
Lemma scalars_opt {A} (o : option A) k f : (forall a, scalarOk (f a)) -> scalars (opt o (fun a => (k, f a))).
Proof. intros H. destruct o; [|constructor]. constructor; [apply H|constructor]. Qed.
Lemma scalars_when b l : scalars l -> scalars (when b l). Proof. intros H. destruct b; [exact H|constructor]. Qed.
Lemma scalars_cons k v l : scalarOk v -> scalars l -> scalars ((k, v) :: l). Proof. intros. constructor; auto. Qed.
Lemma saveBackup_scalar b refs : 0 <= mbCopyStart b < 2 ^ 63 -> 0 <= mbStart b < 2 ^ 63 -> 0 <= mbStop b < 2 ^ 63 -> scalars (saveBackup b refs).
Proof.
  intros T1 T2 T3. unfold saveBackup. do 2 (apply scalars_app; [apply scalars_opt; intros; exact I|]).
  do 3 (apply scalars_app; [apply scalars_when, scalars_cons; [exact I|constructor]|]). apply scalars_app; [apply scalars_cons; [destruct (mbLabel b); exact I|constructor]|].
  do 3 (apply scalars_app; [apply scalars_opt; intros; exact I|]). apply scalars_cons; [exact I|]. apply scalars_cons; [exact T1|]. apply scalars_cons; [exact T2|]. apply scalars_cons; [exact T3|].
  apply scalars_cons; [exact I|constructor].
Qed.
Lemma scalars_bool k o : boolVar o -> scalars (opt o (fun v => (k, v))).
Proof. destruct o as [v|]; intros Hv; [|constructor]. destruct Hv as [b ->]. apply scalars_cons; [exact I|constructor]. Qed.
Lemma scalars_uint k o : uintVar o -> scalars (opt o (fun v => (k, v))).
Proof. destruct o as [v|]; intros Hv; [|constructor]. destruct Hv as (z & -> & Hz). apply scalars_cons; [cbn [scalarOk]; lia|constructor]. Qed.
Lemma saveOption_scalar o : goodOption o -> scalars (saveOption o).
Proof.
  intros (T1 & T2 & T3 & T4 & T5 & T6 & T7). unfold saveOption. apply scalars_app; [do 2 (apply scalars_cons; [exact I|]); constructor|].
  apply scalars_app; [now apply scalars_bool|]. apply scalars_app; [now apply scalars_uint|]. apply scalars_app; [now apply scalars_bool|].
  apply scalars_app; [apply scalars_cons; [exact I|constructor]|]. apply scalars_app; [now apply scalars_uint|]. apply scalars_app; [now apply scalars_uint|].
  apply scalars_app; [apply scalars_cons; [exact I|constructor]|]. apply scalars_app; [now apply scalars_bool|]. apply scalars_app; [do 2 (apply scalars_cons; [exact I|]); constructor|].
  now apply scalars_uint.
Qed.
Lemma plain_opt {A} (o : option A) k (f : A -> jvar) : keyPlain k = true -> forallb (fun p : str * jvar => keyPlain (fst p)) (opt o (fun a => (k, f a))) = true.
Proof. intros H. destruct o; cbn; [now rewrite H|reflexivity]. Qed.
Lemma plain_when b l : forallb (fun p : str * jvar => keyPlain (fst p)) l = true -> forallb (fun p : str * jvar => keyPlain (fst p)) (when b l) = true.
Proof. intros H. destruct b; [exact H|reflexivity]. Qed.
Lemma saveBackup_plain b refs : forallb (fun p : str * jvar => keyPlain (fst p)) (saveBackup b refs) = true.
Proof.
  unfold saveBackup. rewrite !forallb_app. rewrite !(plain_opt _ _ JStr) by reflexivity. rewrite !plain_when by reflexivity. reflexivity.
Qed.
Lemma saveOption_plain o : forallb (fun p : str * jvar => keyPlain (fst p)) (saveOption o) = true.
Proof. unfold saveOption. rewrite !forallb_app. rewrite !(plain_opt _ _ (fun v => v)) by reflexivity. reflexivity. Qed.

Section Main.
Variables (sha : str -> str) (version : str) (control : Z -> Z) (bufSize : nat) (sc : bool) (base : Z).

Theorem save_load m fs : goodManifest control m fs -> timeOk base ->
  exists text, manifestSave sha version control m = Ok text /\
    (linesShorter bufSize text -> exists m' fs', manifestNewLoad sha bufSize sc base text = Ok m' /\ fileView (mnFiles m') fs' /\ sameManifest m fs m' fs').
Proof.
  intros G Ht. unfold goodManifest in G. cbv zeta in G. set (refs := mxReferences (msCtx (mnFiles m))) in *.
  destruct G as (Hview & Hr1 & Hr2 & Hlen & Gb & Gpg & Go & Ga & Gd & Gt & Gl & Gp & Gf & Nd & Nt & Nl & Np & Nf & It & Ip).
  unfold manifestSave. destruct (find_name mpName (mnPaths m) pgData Ip) as (pb & Epb & Hpb & _). rewrite Epb.
  assert (Gpb : 0 <= mpMode pb < 2 ^ 32) by (rewrite Forall_forall in Gp; apply (Gp pb Hpb)).
  cbv zeta. set (sv := mkMsave (manifestOwnerVar (mpUser pb)) (manifestOwnerVar (mpGroup pb)) (Z.land (mpMode pb) 416) (mpMode pb)).
  set (gs := sortBy mfName strLeb fs). assert (Pg : Permutation gs fs) by apply sortBy_perm.
  assert (Eu : mapR (manifestFileUnpack (msCtx (sortPacks (mnFiles m))) (msBase (sortPacks (mnFiles m)))) (msPacks (sortPacks (mnFiles m))) = Ok gs).
  { apply mapR_ok. cbn [sortPacks msCtx msBase msPacks]. apply Forall2_sort; [intros p f; apply unpack_name|]. now apply view_forall2. }
  rewrite Eu. cbn [bind]. clear Eu.
  assert (Ggs : Forall (goodFile refs) gs) by (eapply Permutation_Forall; [apply Permutation_sym, Pg|exact Gf]).
  assert (Hfm : 0 <= Z.land (mpMode pb) 416 < 2 ^ 32) by (apply land_range; lia).
  (* what is written *)
  unfold manifestSaveData. fold refs.
  assert (S1 : Forall (fun p : str * jvar => scalarOk (snd p)) (saveBackup (mnBackup m) refs)).
  { destruct Gb as (T1 & T2 & T3). apply saveBackup_scalar; assumption. }
  assert (S2 : Forall (fun p : str * jvar => scalarOk (snd p)) (savePg control (mnPg m))).
  { destruct Gpg as (T1 & T2 & T3 & T4 & T5). unfold savePg. repeat (apply Forall_cons || apply Forall_nil); cbn [snd scalarOk]; first [exact I|lia]. }
  assert (S3 : Forall (fun p : str * jvar => scalarOk (snd p)) (saveOption (mnOption m))).
  { now apply saveOption_scalar. }
  rewrite (saveVars_ok _ S1), (saveVars_ok _ S2), (saveVars_ok _ S3). cbn [bind].
  destruct (saveObjects_ok mtName targetFields (fun t s => valueText s /\ forall ld, loadTarget ld (mtName t) s = Ok (setLdTargets ld (ldTargets ld ++ [savedTarget t]))) (mnTargets m)) as (ts & Ets & Hts).
  { eapply Forall_impl; [|exact Gt]. intros t (_ & T1 & T2). destruct (load_target t T1 T2) as (s & E1 & E2 & E3). eauto. }
  rewrite Ets. cbn [bind].
  destruct (saveObjects_ok mdName dbFields (fun t s => valueText s /\ forall ld, loadDb ld (mdName t) s = Ok (setLdDbs ld (ldDbs ld ++ [t]))) (mnDbs m)) as (ds & Eds & Hds).
  { eapply Forall_impl; [|exact Gd]. intros t (_ & T1 & T2). destruct (load_db t T1 T2) as (s & E1 & E2 & E3). eauto. }
  rewrite Eds. cbn [bind].
  assert (K : exists an a', saveVars (opt (mnAnnotation m) (fun v => (kAnnotation, v))) = Ok an /\ Forall (fun q => goodKeyValue (fst q) (snd q)) an /\
    (forall ld, ldAnnotation ld = None -> feed (loadCallback sc) ld (tag sMetadata an) = Ok (setLdAnnotation ld a')) /\ sameAnnotation (mnAnnotation m) a').
  { destruct (mnAnnotation m) as [v|].
    - destruct Ga as (l & -> & Ga). destruct (annotation_ok l (ex_intro _ l (conj eq_refl Ga))) as (s & l' & E1 & E2 & E3 & E4).
      exists [(kAnnotation, s)], (Some (JObj l')). split; [unfold saveVars; cbn [opt mapR fst snd]; rewrite E1; reflexivity|]. split.
      + constructor; [|constructor]. apply good_key; [discriminate|apply existsb_in; reflexivity|apply existsb_in; reflexivity|exact E2].
      + split; [|exact E4]. intros ld _. cbn [tag map feed fst snd]. change (loadCallback sc ld sMetadata kAnnotation s) with (loadMetadata ld kAnnotation s). rewrite E3. reflexivity.
    - exists [], None. split; [reflexivity|]. split; [constructor|]. split; [|exact I]. intros ld E. cbn. rewrite <- E. now destruct ld. }
  destruct K as (an & a' & Ean & Gan & Fan & San). rewrite Ean. cbn [bind].
  destruct (saveObjects_ok mfName (fileFields sv) (fun f s => valueText s /\ forall ld, midLoad ld -> loadFile sc ld (mfName f) s = (let* files := manifestFileAdd (ldFiles ld) (loadedFile sv f) in Ok (setLdFiles ld files))) gs) as (tf & Etf & Htf).
  { eapply Forall_impl; [|exact Ggs]. intros f Hf. destruct (load_file sc sv f refs Hf) as (s & E1 & E2 & E3). eauto. }
  rewrite Etf. cbn [bind].
  rewrite saveVars_ok by (repeat (apply Forall_cons || apply Forall_nil); first [exact I|apply owner_scalar]). cbn [bind].
  destruct (saveObjects_ok mlName (linkFields sv) (fun p s => valueText s /\ forall ld, exists g u, loadLink ld (mlName p) s = Ok (setLdLinks (cacheOwner (cacheOwner ld g) u) (ldLinks ld ++ [ownLink sv p]))) (mnLinks m)) as (tl & Etl & Htl).
  { eapply Forall_impl; [|exact Gl]. intros p _. destruct (load_link sv p) as (s & E1 & E2 & E3). eauto. }
  rewrite Etl. cbn [bind].
  assert (S4 : Forall (fun p : str * jvar => scalarOk (snd p)) (when (0 <? length (mnLinks m))%nat [(kGroup, svGroup sv); (kUser, svUser sv)])).
  { destruct (0 <? length (mnLinks m))%nat; repeat (apply Forall_cons || apply Forall_nil); apply owner_scalar. }
  rewrite (saveVars_ok _ S4). cbn [bind].
  destruct (saveObjects_ok mpName (pathFields sv) (fun p s => valueText s /\ forall ld, exists g u, loadPath ld (mpName p) s = Ok (setLdPaths (cacheOwner (cacheOwner ld g) u) (ldPaths ld ++ [ownPath sv p]))) (mnPaths m)) as (tp & Etp & Htp).
  { eapply Forall_impl; [|exact Gp]. intros p [_ T]. destruct (load_path sv p T) as (s & E1 & E2 & E3). eauto. }
  rewrite Etp. cbn [bind].
  rewrite saveVars_ok by (repeat (apply Forall_cons || apply Forall_nil); first [exact I|apply owner_scalar]). cbn [bind].
  eexists. split; [reflexivity|]. intros Hls. unfold manifestNewLoad.
  rewrite roundtrip; [|clear Hls|exact Hls].
  2: { split; [apply sortedb_ok; reflexivity|].
    assert (Sec : forall sec d, keyPlain sec && negb (strEqb sec sectionBackrest) && negb (strEqb sec sectionCipher) = true -> Forall (fun q : str * str => goodKeyValue (fst q) (snd q)) d ->
      fst (sec, d) <> [] /\ ~ In 10 (fst (sec, d)) /\ fst (sec, d) <> sectionBackrest /\ fst (sec, d) <> sectionCipher /\ Forall (fun q : str * str => goodKeyValue (fst q) (snd q)) (snd (sec, d))).
    { intros sec d Hs Hd. cbn [fst snd]. rewrite !andb_true_iff, !negb_true_iff in Hs. destruct Hs as ((H1 & H2) & H3). unfold keyPlain in H1. destruct sec as [|c sec]; [discriminate|].
      apply andb_true_iff in H1 as [H1 _]. rewrite negb_true_iff in H1. apply existsb_in in H1. split; [discriminate|]. split; [exact H1|].
      split; [intros E; rewrite E in H2; discriminate H2|]. split; [intros E; rewrite E in H3; discriminate H3|exact Hd]. }
    repeat (apply Forall_cons; [apply Sec; [reflexivity|]|]); [..|apply Forall_nil].
    - apply lines_good; [exact S1|apply saveBackup_plain].
    - apply lines_good; [exact S2|reflexivity].
    - apply lines_good; [exact S3|apply saveOption_plain].
    - eapply (objects_good mtName targetFields (fun t s => jsonObject (targetFields t) = Ok s)); [exact Hts|intros a t (X1 & X2 & X3 & _); auto|auto|]. eapply Forall_impl; [|exact Gt]. intros t [T _]. exact T.
    - eapply (objects_good mdName dbFields (fun t s => jsonObject (dbFields t) = Ok s)); [exact Hds|intros a t (X1 & X2 & X3 & _); auto|auto|]. eapply Forall_impl; [|exact Gd]. intros t [T _]. exact T.
    - exact Gan.
    - eapply (objects_good mfName (fileFields sv) (fun f s => exists sv, jsonObject (fileFields sv f) = Ok s)); [exact Htf|intros a t (X1 & X2 & X3 & _); auto|eauto|]. eapply Forall_impl; [|exact Ggs]. intros t [T _]. exact T.
    - apply lines_good; [repeat (apply Forall_cons || apply Forall_nil); first [exact I|apply owner_scalar]|reflexivity].
    - eapply (objects_good mlName (linkFields sv) (fun f s => exists sv, jsonObject (linkFields sv f) = Ok s)); [exact Htl|intros a t (X1 & X2 & X3 & _); auto|eauto|]. exact Gl.
    - apply lines_good; [exact S4|]. destruct (0 <? length (mnLinks m))%nat; reflexivity.
    - eapply (objects_good mpName (pathFields sv) (fun f s => exists sv, jsonObject (pathFields sv f) = Ok s)); [exact Htp|intros a t (X1 & X2 & X3 & _); auto|eauto|]. eapply Forall_impl; [|exact Gp]. intros t [T _]. exact T.
    - apply lines_good; [repeat (apply Forall_cons || apply Forall_nil); first [exact I|apply owner_scalar]|reflexivity]. }
  cbn [flatten flat_map fst snd]. rewrite app_nil_r.
  repeat match goal with |- context [map (fun q : str * str => (?sec, fst q, snd q)) ?l] => fold (tag sec l) end.

  rewrite feed_app, (feed_backup sc (loadInit base) (mnBackup m) refs Gb Hr1 Hr2 eq_refl). cbn [bind].
  set (ld1 := setLdReferenceFound _ _). rewrite feed_app, (feed_pg sc control ld1 (mnPg m) Gpg eq_refl). cbn [bind].
  set (ld2 := setLdPg ld1 _). rewrite feed_app, (feed_option sc ld2 (mnOption m) Go eq_refl). cbn [bind].
  set (ld3 := setLdOption ld2 _). rewrite feed_app, (feed_targets sc _ _ Hts ld3). cbn [bind].
  set (ld4 := setLdTargets ld3 _). rewrite feed_app, (feed_dbs sc _ _ Hds ld4). cbn [bind].
  set (ld5 := setLdDbs ld4 _). rewrite feed_app, (Fan ld5 eq_refl). cbn [bind].
  set (ld6 := setLdAnnotation ld5 _). rewrite feed_app.
  destruct (feed_files sc sv refs gs tf Htf Ggs ld6 []) as (s & Es & Hs & Rs).
  { reflexivity. }
  { split; [repeat split|]. split; [now right|]. split; [exact Ht|constructor]. }
  { reflexivity. }
  { change (length (mxOwners (msCtx (ldFiles ld6)))) with 0%nat. rewrite (Permutation_length Pg). lia. }
  rewrite Es. cbn [bind app] in *.
  set (ld7 := setLdFiles ld6 s). rewrite feed_app. unfold sv at 1 2 3. cbn [svUser svGroup svFileMode].
  rewrite (feed_fileDefault sc ld7 (mpUser pb) (mpGroup pb) _ Hfm). cbn [bind].
  set (ld8 := setDefaults ld7 _ _ _). rewrite feed_app.
  destruct (feed_links sc sv _ _ Htl ld8) as (x9 & Hx9 & E9). rewrite E9. cbn [bind].
  set (ld9 := setLdLinks (setCtx ld8 x9) _). rewrite feed_app.
  assert (K : exists lg lu, feed (loadCallback sc) ld9 (tag sTargetLinkDefault (lineTexts (when (0 <? length (mnLinks m))%nat [(kGroup, svGroup sv); (kUser, svUser sv)]))) =
      Ok (setLdLinkUser (setLdLinkGroup ld9 lg) lu) /\
      forall x, exists x', grows x x' /\ linkDefaults lg lu x (map (ownLink sv) (mnLinks m)) = Ok (mnLinks m, x')).
  { destruct (mnLinks m) as [|l0 ls].
    - exists None, None. split; [reflexivity|]. intros x. exists x. split; [apply grows_refl|reflexivity].
    - exists (Some (manifestOwnerVar (mpGroup pb))), (Some (manifestOwnerVar (mpUser pb))). split; [apply feed_linkDefault|]. apply linkDefaults_ok. }
  destruct K as (lg & lu & E10 & Ld). rewrite E10. cbn [bind].
  set (ld10 := setLdLinkUser _ _). rewrite feed_app.
  destruct (feed_paths sc sv _ _ Htp ld10) as (x11 & Hx11 & E11). rewrite E11. cbn [bind].
  set (ld11 := setLdPaths (setCtx ld10 x11) _). unfold sv at 1 2 3. cbn [svUser svGroup svPathMode].
  rewrite (feed_pathDefault sc ld11 (mpUser pb) (mpGroup pb) _ Gpb). cbn [bind].
  set (ld12 := setLdPathUser _ _). change (ldReferenceFound ld12) with true. cbv iota. cbn [bind].
  change (ldFiles ld12) with (mkMfiles x11 (msBase s) (msPacks s)). cbn [msCtx msBase msPacks].
  change (ldLinkGroup ld12) with lg. change (ldLinkUser ld12) with lu. change (ldLinks ld12) with (map (ownLink sv) (mnLinks m)).
  destruct (Ld x11) as (x12 & Hx12 & E12). rewrite E12. cbn [bind].
  change (ldPathGroup ld12) with (Some (manifestOwnerVar (mpGroup pb))). change (ldPathUser ld12) with (Some (manifestOwnerVar (mpUser pb))). change (ldPathMode ld12) with (mpMode pb).
  change (ldPaths ld12) with (map (ownPath sv) (mnPaths m)).
  destruct (pathDefaults_ok (mpUser pb) (mpGroup pb) (Z.land (mpMode pb) 416) (mpMode pb) (mnPaths m) x12) as (x13 & Hx13 & E13). fold sv in E13. rewrite E13. cbn [bind].
  change (ldTargets ld12) with (map savedTarget (mnTargets m)).
  assert (Nt' : map mtName (map savedTarget (mnTargets m)) = map mtName (mnTargets m)) by (rewrite map_map; reflexivity).
  destruct (find_name mtName (sortBy mtName strLeb (map savedTarget (mnTargets m))) pgData) as (tb & Etb & _).
  { eapply Permutation_in; [apply Permutation_map, Permutation_sym, sortBy_perm|]. rewrite Nt'. exact It. }
  rewrite Etb. eexists _, (sortBy mfName strLeb (map savedFile gs)). split; [reflexivity|].
  set (c8 := mkMctx (mxReferences (msCtx s)) (mxOwners (msCtx s)) (mpUser pb) (mpGroup pb) (Z.land (mpMode pb) 416)).
  assert (G8 : grows c8 x13).
  { eapply grows_trans; [exact Hx9|]. eapply grows_trans; [exact Hx11|]. eapply grows_trans; [exact Hx12|exact Hx13]. }
  assert (X8 : extends (msCtx s) x13).
  { eapply extends_trans; [|apply (grows_extends c8); [exact Hfm|exact G8]]. split; [exists []; now rewrite app_nil_r|]. split; [exists []; now rewrite app_nil_r|exact Hfm]. }
  destruct G8 as (R8 & _ & (D1 & D2 & D3)). cbn [c8 mxReferences mxUser mxGroup mxMode] in R8, D1, D2, D3.
  split.
  { apply forall2_view. cbn [mnFiles sortPacks msCtx msBase msPacks]. apply Forall2_sort; [intros p f; apply unpack_name|].
    destruct Hs as (_ & _ & _ & HF). clear -HF X8 D1 D2 D3 Ggs. revert HF Ggs. generalize (msPacks s). intros ps. revert ps.
    induction gs as [|f gs IH]; intros ps HF Hg; inversion HF; subst; [constructor|]. inversion Hg; subst. cbn [map]. constructor; [|now apply IH].
    match goal with H : forall x', extends _ x' -> _ |- _ => rewrite (H x13 X8) end. f_equal. eapply stored_loaded; eassumption. }
  assert (Ns : forall l, map mfName (map savedFile l) = map mfName l) by (intros l; rewrite map_map; reflexivity).
  unfold sameManifest. cbn [mnCipher mnBackup mnPg mnOption mnAnnotation mnDbs mnTargets mnLinks mnPaths mnFiles sortPacks msCtx].
  split; [reflexivity|]. split; [reflexivity|]. split; [reflexivity|]. split; [reflexivity|]. split; [exact San|]. split; [rewrite R8; exact Rs|].
  split; [apply sorted_byName; [reflexivity|exact Nd]|]. split; [apply sorted_byName; [reflexivity|rewrite Nt'; exact Nt]|]. split; [apply sorted_byName; [reflexivity|exact Nl]|].
  split; [apply sorted_byName; [reflexivity|exact Np]|]. apply sorted_byName; [apply Permutation_map, Permutation_sym, Pg|]. rewrite Ns. exact Nf.
Qed.
End Main.
