From Verif Require Import Base Str ConvertModel NumModel NumSpec NumProof EncodeModel EncodeProof ArchiveIdModel ArchiveIdSpec ArchiveIdProof JsonModel JsonSpec JsonProof JsonProof2 JsonProof3 JsonProof4 JsonProof8
  InfoModel InfoSpec InfoProof2 InfoProof3 ManifestPackModel ManifestPackSpec ManifestPackProof ManifestPackProof2 ManifestModel ManifestSpec ManifestProof ManifestProof2.
From Coq Require Import Permutation Sorting.Sorted.
Open Scope Z_scope.

(** * Paths, links, targets and databases *)
Definition pathE (sv : msave) (p : mpath) : fieldList :=
  [(kGroup, whenO (negb (ownerVarEq (manifestOwnerVar (mpGroup p)) (svGroup sv))) (fv (manifestOwnerVar (mpGroup p))))] ++
  [(kMode, whenO (negb (mpMode p =? svPathMode sv)) (fv (JStr (cvtModeToZ (mpMode p)))))] ++
  [(kUser, whenO (negb (ownerVarEq (manifestOwnerVar (mpUser p)) (svUser sv))) (fv (manifestOwnerVar (mpUser p))))].
Lemma pathE_fields sv p : pathFields sv p = present (pw (pathE sv p)).
Proof.
  unfold pathE. rewrite !pw_app, !present_app. unfold pathFields. repeat match goal with |- ?a ++ ?b = ?c ++ ?d => apply (f_equal2 (@app _)) end.
  - now destruct (ownerVarEq (manifestOwnerVar (mpGroup p)) (svGroup sv)).
  - now destruct (mpMode p =? svPathMode sv).
  - now destruct (ownerVarEq (manifestOwnerVar (mpUser p)) (svUser sv)).
Qed.
Lemma pathE_ok sv p : Forall fieldOk (pathE sv p).
Proof. unfold pathE. cbn [app]. repeat (apply Forall_cons || apply Forall_nil); apply whenO_ok; intros _; first [exact I|apply owner_scalar]. Qed.
(** A path as it is kept until the defaults are known. *)
Definition ownPath (sv : msave) (p : mpath) : mpath * (bool * bool * bool) :=
  let g := whenO (negb (ownerVarEq (manifestOwnerVar (mpGroup p)) (svGroup sv))) (mpGroup p) in
  let m := whenO (negb (mpMode p =? svPathMode sv)) (mpMode p) in
  let u := whenO (negb (ownerVarEq (manifestOwnerVar (mpUser p)) (svUser sv))) (mpUser p) in
  (mkMpath (mpName p) (orElse m 0) (orElse u None) (orElse g None), (isSome g, isSome m, isSome u)).
Lemma load_path sv p : 0 <= mpMode p < 2 ^ 32 ->
  exists s, jsonObject (pathFields sv p) = Ok s /\ valueText s /\
    forall ld, exists g u, loadPath ld (mpName p) s = Ok (setLdPaths (cacheOwner (cacheOwner ld g) u) (ldPaths ld ++ [ownPath sv p])).
Proof.
  intros Hm. destruct (object_of (pathE sv p) _ (pathE_fields sv p) (pathE_ok sv p) eq_refl) as (s & Es & Hv & st & Eb & Ho).
  exists s. split; [exact Es|]. split; [exact Hv|]. intros ld. unfold loadPath. rewrite Eb. cbn [bind]. unfold pathE in Ho. cbn [app pv map fst snd] in Ho.
  nextKey readOwner (whenO (negb (ownerVarEq (manifestOwnerVar (mpGroup p)) (svGroup sv))) (mpGroup p)). { apply whenO_reads. intros _. rewrite owner_canon. apply reads_owner. }
  nextKey readMode (whenO (negb (mpMode p =? svPathMode sv)) (mpMode p)). { apply whenO_reads. intros _. apply reads_mode. lia. }
  nextKey readOwner (whenO (negb (ownerVarEq (manifestOwnerVar (mpUser p)) (svUser sv))) (mpUser p)). { apply whenO_reads. intros _. rewrite owner_canon. apply reads_owner. }
  eexists _, _. reflexivity.
Qed.

Definition linkE (sv : msave) (p : mlink) : fieldList :=
  [(kDestination, Some (fv (JStr (mlDestination p))))] ++
  [(kGroup, whenO (negb (ownerVarEq (manifestOwnerVar (mlGroup p)) (svGroup sv))) (fv (manifestOwnerVar (mlGroup p))))] ++
  [(kUser, whenO (negb (ownerVarEq (manifestOwnerVar (mlUser p)) (svUser sv))) (fv (manifestOwnerVar (mlUser p))))].
Lemma linkE_fields sv p : linkFields sv p = present (pw (linkE sv p)).
Proof.
  unfold linkE. rewrite !pw_app, !present_app. unfold linkFields. repeat match goal with |- ?a ++ ?b = ?c ++ ?d => apply (f_equal2 (@app _)) end.
  - reflexivity.
  - now destruct (ownerVarEq (manifestOwnerVar (mlGroup p)) (svGroup sv)).
  - now destruct (ownerVarEq (manifestOwnerVar (mlUser p)) (svUser sv)).
Qed.
Lemma linkE_ok sv p : Forall fieldOk (linkE sv p).
Proof. unfold linkE. cbn [app]. apply Forall_cons; [apply fi_var; exact I|]. repeat (apply Forall_cons || apply Forall_nil); apply whenO_ok; intros _; apply owner_scalar. Qed.
Definition ownLink (sv : msave) (p : mlink) : mlink * (bool * bool) :=
  let g := whenO (negb (ownerVarEq (manifestOwnerVar (mlGroup p)) (svGroup sv))) (mlGroup p) in
  let u := whenO (negb (ownerVarEq (manifestOwnerVar (mlUser p)) (svUser sv))) (mlUser p) in
  (mkMlink (mlName p) (mlDestination p) (orElse u None) (orElse g None), (isSome g, isSome u)).
Lemma load_link sv p :
  exists s, jsonObject (linkFields sv p) = Ok s /\ valueText s /\
    forall ld, exists g u, loadLink ld (mlName p) s = Ok (setLdLinks (cacheOwner (cacheOwner ld g) u) (ldLinks ld ++ [ownLink sv p])).
Proof.
  destruct (object_of (linkE sv p) _ (linkE_fields sv p) (linkE_ok sv p) eq_refl) as (s & Es & Hv & st & Eb & Ho).
  exists s. split; [exact Es|]. split; [exact Hv|]. intros ld. unfold loadLink. rewrite Eb. cbn [bind]. unfold linkE in Ho. cbn [app pv map fst snd option_map] in Ho.
  destruct (requireKey_ok readString kDestination _ (mlDestination p) _ _ _ Ho (reads_string _)) as (st1 & E1 & Ho1). rewrite E1. cbn [bind]. clear Ho E1. rename Ho1 into Ho.
  nextKey readOwner (whenO (negb (ownerVarEq (manifestOwnerVar (mlGroup p)) (svGroup sv))) (mlGroup p)). { apply whenO_reads. intros _. rewrite owner_canon. apply reads_owner. }
  nextKey readOwner (whenO (negb (ownerVarEq (manifestOwnerVar (mlUser p)) (svUser sv))) (mlUser p)). { apply whenO_reads. intros _. rewrite owner_canon. apply reads_owner. }
  eexists _, _. reflexivity.
Qed.

Definition targetE (t : mtarget) : fieldList :=
  [(kFile, option_map (fun s => fv (JStr s)) (mtFile t))] ++ [(kPath, Some (fv (JStr (mtPath t))))] ++
  [(kTablespaceId, whenO (negb (mtTablespaceId t =? 0)) (fv (JStr (cvtUIntToZ (mtTablespaceId t)))))] ++
  [(kTablespaceName, option_map (fun s => fv (JStr s)) (mtTablespaceName t))] ++
  [(kType, Some (fv (JStr (if mtIsPath t then tPath else tLink))))].
Lemma targetE_fields t : targetFields t = present (pw (targetE t)).
Proof.
  unfold targetE. rewrite !pw_app, !present_app. unfold targetFields. repeat match goal with |- ?a ++ ?b = ?c ++ ?d => apply (f_equal2 (@app _)) end.
  - now destruct (mtFile t).
  - reflexivity.
  - now destruct (mtTablespaceId t =? 0).
  - now destruct (mtTablespaceName t).
  - reflexivity.
Qed.
Lemma targetE_ok t : Forall fieldOk (targetE t).
Proof.
  unfold targetE. cbn [app]. apply Forall_cons; [apply optO_ok; intros; exact I|]. apply Forall_cons; [apply fi_var; exact I|].
  apply Forall_cons; [apply whenO_ok; intros; exact I|]. apply Forall_cons; [apply optO_ok; intros; exact I|]. apply Forall_cons; [apply fi_var; exact I|apply Forall_nil].
Qed.
Lemma require_skip {A} (rd : jread -> res (A * jread)) k0 v0 key v a st rest : slt k0 key -> ~ (exists t, key = k0 ++ t) -> reads rd v a ->
  objPos [(k0, v0); (key, v)] st rest -> exists st', requireKey st key rd = Ok (a, st').
Proof.
  intros Hlt Hp Hr Ho. apply objPos_front in Ho. unfold requireKey, jsonReadKeyRequire, jsonReadKeyExpect. cbv zeta.
  destruct (keyExpect_loop key [(k0, v0); (key, v)] (loopFuel (jsonReadConsumeWhiteSpace st)) (jsonReadConsumeWhiteSpace st) rest) as (l2 & st' & _ & _ & _ & K); [| |exact Ho| |].
  - cbn. constructor; [repeat constructor|]. constructor; [exact Hlt|constructor].
  - constructor; [intros t E; destruct Hp; eauto|]. constructor; [|constructor]. intros t E. cbn in E. apply (f_equal (@length Z)) in E. rewrite app_length in E. destruct t; [reflexivity|cbn in E; lia].
  - unfold loopFuel. apply objPos_len in Ho. lia.
  - assert (G : kvGet [(k0, v0); (key, v)] key = Some v) by (rewrite kvGet_skip by exact Hlt; cbn; now rewrite strEqb_refl).
    rewrite G in K. destruct K as [[K _]|(v' & s & tail & [= <-] & E & Hg & Hv & Hf & _)]; [discriminate|]. rewrite E. cbn [bind]. eexists. now apply (Hr st' s tail).
Qed.
Lemma load_target t : 0 <= mtTablespaceId t < 2 ^ 32 -> (mtTablespaceId t <> 0 -> mtTablespaceName t <> None) ->
  exists s, jsonObject (targetFields t) = Ok s /\ valueText s /\ forall ld, loadTarget ld (mtName t) s = Ok (setLdTargets ld (ldTargets ld ++ [savedTarget t])).
Proof.
  intros Hi Hn. destruct (object_of (targetE t) _ (targetE_fields t) (targetE_ok t) eq_refl) as (s & Es & Hv & st & Eb & Ho).
  exists s. split; [exact Es|]. split; [exact Hv|]. intros ld. unfold loadTarget. rewrite Eb. cbn [bind]. unfold targetE in Ho. cbn [app pv map fst snd option_map] in Ho.
  nextKey jsonReadStr (option_map Some (mtFile t)). { apply optO_reads. intros. apply reads_str. }
  destruct (requireKey_ok readString kPath _ (mtPath t) _ _ _ Ho (reads_string _)) as (st1 & E1 & Ho1). rewrite E1. cbn [bind]. clear Ho E1. rename Ho1 into Ho.
  nextKey readUIntStr (whenO (negb (mtTablespaceId t =? 0)) (mtTablespaceId t)). { apply whenO_reads. intros _. apply reads_uintStr. exact Hi. }
  match type of Ho with objPos (present (_ :: ?e)) ?st _ =>
    assert (K : exists st', (if isSome (whenO (negb (mtTablespaceId t =? 0)) (mtTablespaceId t)) then requireKey st kTablespaceName jsonReadStr else Ok (None, st)) =
      Ok (if mtTablespaceId t =? 0 then None else mtTablespaceName t, st') /\ exists e', objPos (present (e' ++ e)) st' [] /\ (e' = [] \/ exists v, e' = [(kTablespaceName, Some v)])) end.
  { destruct (Z.eqb_spec (mtTablespaceId t) 0) as [E|E]; cbn [negb whenO isSome].
    - eexists. split; [reflexivity|]. destruct (mtTablespaceName t) as [n|].
      + exists [(kTablespaceName, Some (JStr n))]. split; [exact Ho|]. right. eauto.
      + exists []. split; [exact Ho|]. now left.
    - specialize (Hn E). destruct (mtTablespaceName t) as [n|]; [|congruence].
      destruct (requireKey_ok jsonReadStr kTablespaceName _ (Some n) _ _ _ Ho (reads_str _)) as (st8 & E8 & Ho8). exists st8. split; [exact E8|]. exists []. split; [exact Ho8|now left]. }
  destruct K as (st9 & E9 & e' & Ho9 & He'). rewrite E9. cbn [bind]. clear Ho E9.
  assert (K : exists st', requireKey st9 kType readString = Ok (if mtIsPath t then tPath else tLink, st')).
  { destruct He' as [-> |[v ->]].
    - destruct (requireKey_ok readString kType _ (if mtIsPath t then tPath else tLink) _ _ _ Ho9 (reads_string _)) as (st3 & E3 & _). eauto.
    - eapply require_skip; [| |apply reads_string|exact Ho9]; [reflexivity|intros [t' E']; discriminate E']. }
  destruct K as (st3 & E3). rewrite E3. cbn [bind]. unfold savedTarget. rewrite eqb_orElse by lia.
  replace (orElse (option_map Some (mtFile t)) None) with (mtFile t) by (now destruct (mtFile t)).
  replace (strEqb (if mtIsPath t then tPath else tLink) tPath) with (mtIsPath t) by (now destruct (mtIsPath t)). reflexivity.
Qed.

Definition dbE (d : mdb) : fieldList := [(kDbId, Some (fv (JUInt (mdId d)))); (kDbLastSystemId, Some (fv (JUInt (mdLastSystemId d))))].
Lemma load_db d : 0 <= mdId d < 2 ^ 32 -> 0 <= mdLastSystemId d < 2 ^ 32 ->
  exists s, jsonObject (dbFields d) = Ok s /\ valueText s /\ forall ld, loadDb ld (mdName d) s = Ok (setLdDbs ld (ldDbs ld ++ [d])).
Proof.
  intros H1 H2. destruct (object_of (dbE d) (dbFields d) eq_refl) as (s & Es & Hv & st & Eb & Ho); [|reflexivity|].
  { unfold dbE. repeat (apply Forall_cons || apply Forall_nil); apply fi_var; cbn [scalarOk]; lia. }
  exists s. split; [exact Es|]. split; [exact Hv|]. intros ld. unfold loadDb. rewrite Eb. cbn [bind]. unfold dbE in Ho. cbn [app pv map fst snd option_map] in Ho.
  destruct (requireKey_ok jsonReadUInt kDbId _ (mdId d) _ _ _ Ho (reads_uint _ (proj2 H1))) as (st1 & E1 & Ho1). rewrite E1. cbn [bind].
  destruct (requireKey_ok jsonReadUInt kDbLastSystemId _ (mdLastSystemId d) _ _ _ Ho1 (reads_uint _ (proj2 H2))) as (st2 & E2 & Ho2). rewrite E2. cbn [bind].
  now destruct d.
Qed.

(** * Annotations *)
Lemma fields_fold l : forall w, fold_left stepObj (closures l) (Ok w) = writeFields w (map (fun p => (fst p, WVar (snd p))) l).
Proof.
  induction l as [|[k v] l IH]; intros w; [reflexivity|]. cbn [closures map fold_left writeFields fst snd]. unfold writeField. cbn [fst snd]. unfold stepObj at 2. cbn [bind fst snd].
  destruct (jsonWriteKey w k) as [w1|e|] eqn:E; cbn [bind].
  - destruct (jsonWriteVarRecurse w1 v) as [w2|e|] eqn:E2; cbn [bind]; [apply IH| |]; clear; induction l as [|p l IH]; cbn; auto.
  - clear. induction l as [|p l IH]; cbn; auto.
  - clear. induction l as [|p l IH]; cbn; auto.
Qed.
Lemma fromVar_object l : jsonFromVar (JObj l) = jsonObject (map (fun p => (fst p, WVar (snd p))) (kvSorted l)).
Proof.
  unfold jsonFromVar, jsonObject. cbn [jsonWriteVarRecurse].
  match goal with |- context [kvSorted (?g l)] => assert (E : kvSorted (g l) = closures (kvSorted l)) end.
  { match goal with |- kvSorted ?x = _ => replace x with (closures l) end.
    - unfold kvSorted, closures. apply sortBy_map. reflexivity.
    - clear. induction l as [|[k v] l IH]; [reflexivity|]. cbn [closures map fst snd]. f_equal. exact IH. }
  rewrite E. destruct (jsonWriteBegin jsonWriteNew true) as [w|e|]; cbn [bind]; [|reflexivity|reflexivity]. fold stepObj. rewrite fields_fold.
  destruct (writeFields w _); reflexivity.
Qed.
Lemma annotation_ok l : goodAnnotation (Some (JObj l)) ->
  exists s l', jsonFromVar (JObj l) = Ok s /\ valueText s /\ (forall ld, loadMetadata ld kAnnotation s = Ok (setLdAnnotation ld (Some (JObj l')))) /\ Permutation l l'.
Proof.
  intros (l0 & [= <-] & Hnd & Hk). pose proof (sortBy_perm fst strLeb l) as P. fold (kvSorted l) in P.
  assert (Hk' : Forall (fun p : str * jvar => (exists c k, fst p = c :: k /\ 97 <= c <= 122) /\ jkeyText (fst p) /\ ~ In 10 (fst p) /\ (length (fst p) < 67)%nat /\ exists s, snd p = JStr s) (kvSorted l)).
  { eapply Permutation_Forall; [apply Permutation_sym, P|exact Hk]. }
  assert (Hs : StronglySorted slt (map fst (kvSorted l))).
  { apply sle_nodup_slt; [rewrite map_sort; apply strLstSortAsc_sorted|]. eapply Permutation_NoDup; [apply Permutation_map, Permutation_sym, P|exact Hnd]. }
  set (ks := kvSorted l) in *. set (m := map (fun p : str * jvar => (fst p, (snd p, vtext (snd p)))) ks).
  assert (Hf : fieldsAre (map (fun p => (fst p, WVar (snd p))) ks) m).
  { unfold m, fieldsAre. clear -Hk'. induction Hk' as [|[k v] ks (_ & _ & _ & _ & s & E) Hk IH]; constructor; [|exact IH]. cbn in *. subst v. split; [reflexivity|]. apply (fi_var (JStr s)). exact I. }
  assert (Hm : values m = ks). { unfold values, m. rewrite map_map. cbn. rewrite <- (map_id ks) at 2. apply map_ext. now intros [k v]. }
  assert (Hok : Forall (fun p : str * wval => keyOk (fst p)) (map (fun p => (fst p, WVar (snd p))) ks)).
  { apply Forall_map. eapply Forall_impl; [|exact Hk']. cbn. intros p (_ & H1 & H2 & H3 & _). split; [exact H1|]. split; assumption. }
  assert (Hs' : StronglySorted slt (map fst (map (fun p : str * jvar => (fst p, WVar (snd p))) ks))) by (rewrite map_map; exact Hs).
  pose proof (object_gram _ _ Hf Hok Hs') as Hg. rewrite Hm in Hg.
  eexists _, ks. split; [rewrite fromVar_object; exact (object_text _ _ Hf Hok Hs')|]. split; [|split; [|apply Permutation_sym, P]].
  - exists (JObj ks). split; [exact Hg|]. split; [cbn [lineValue]; eapply Forall_impl; [|exact Hk']; cbn; intros p (H & _); exact H|].
    intros [H|H]; [lia|]. apply in_app_or in H as [H|[H|[]]]; [|lia]. exact (objText_no10 _ _ Hf Hok H).
  - intros ld. unfold loadMetadata. cbn [strEqb]. rewrite strEqb_refl. destruct (reads_new jsonReadVar (JObj ks) (JObj ks) _ (reads_var _) Hg) as [st E]. rewrite E. reflexivity.
Qed.
