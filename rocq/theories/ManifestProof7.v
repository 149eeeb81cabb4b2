From Verif Require Import Base Str InfoModel InfoSpec InfoProof5 ManifestPackModel ManifestPackSpec ManifestPackProof ManifestModel ManifestSpec ManifestProof5.
Open Scope Z_scope.

(** Manifests without a list of references. *)
Ltac crunch E :=
  repeat match type of E with
  | bind ?e _ = _ => let p := fresh "p" in destruct e as [p| |]; cbn [bind] in E; [|discriminate|discriminate]; try (let q := fresh "q" in destruct p as [p q])
  | (let (_, _) := ?p in _) = _ => let a := fresh "a" in let b := fresh "b" in destruct p as [a b]
  | (if ?b then _ else _) = _ => destruct b
  | (match ?x with Some _ => _ | None => _ end) = _ => destruct x; [|discriminate]
  end; try discriminate; injection E as <-; try reflexivity.
Lemma cb_found sc ld s k v ld' : loadCallback sc ld s k v = Ok ld' -> ldReferenceFound ld' = ldReferenceFound ld \/ s = sBackup /\ k = kReferenceList.
Proof.
  intros E. unfold loadCallback in E.
  destruct (strEqb s sTargetFile); [left; unfold loadFile in E; crunch E|].
  destruct (strEqb s sTargetPath); [left; unfold loadPath in E; crunch E|].
  destruct (strEqb s sTargetLink); [left; unfold loadLink in E; crunch E|].
  destruct (strEqb s sTargetFileDefault); [left; unfold loadFileDefault in E; crunch E|].
  destruct (strEqb s sTargetPathDefault); [left; unfold loadPathDefault in E; crunch E|].
  destruct (strEqb s sTargetLinkDefault); [left; unfold loadLinkDefault in E; crunch E|].
  destruct (strEqb s sBackupTarget); [left; unfold loadTarget in E; crunch E|].
  destruct (strEqb s sDb); [left; unfold loadDb in E; crunch E|].
  destruct (strEqb s sMetadata); [left; unfold loadMetadata in E; crunch E|].
  destruct (strEqb s sBackup) eqn:Es.
  { apply strEqb_eq in Es. unfold loadBackup in E. destruct (strEqb k kReferenceList) eqn:Ek; [apply strEqb_eq in Ek; auto|]. left. crunch E. }
  destruct (strEqb s sBackupDb); [left; unfold loadPg in E; crunch E|].
  destruct (strEqb s sBackupOption); [left; unfold loadOption in E; crunch E|].
  left. injection E as <-. reflexivity.
Qed.

Lemma feed_found sc l : forall ld ld', feed (loadCallback sc) ld l = Ok ld' -> ldReferenceFound ld' = ldReferenceFound ld \/ exists v, In (sBackup, kReferenceList, v) l.
Proof.
  induction l as [|[[s k] v] l IH]; intros ld ld' E; cbn [feed] in E; [injection E as <-; auto|].
  destruct (loadCallback sc ld s k v) as [ld1| |] eqn:E1; cbn [bind] in E; try discriminate. apply cb_found in E1. apply IH in E. destruct E as [E|(w & E)]; [|right; exists w; now right].
  destruct E1 as [E1|[-> ->]]; [left; congruence|]. right. exists v. now left.
Qed.
Lemma linkDefaults_grows g u l : forall x l' x', linkDefaults g u x l = Ok (l', x') -> grows x x'.
Proof.
  induction l as [|[k [fg fu]] l IH]; intros x l' x' E; cbn [linkDefaults] in E; [injection E as <- <-; apply grows_refl|].
  match type of E with bind ?e _ = _ => destruct e as [[g1 x1]| |] eqn:E1; cbn [bind] in E; try discriminate end.
  match type of E with bind ?e _ = _ => destruct e as [[g2 x2]| |] eqn:E2; cbn [bind] in E; try discriminate end.
  match type of E with bind ?e _ = _ => destruct e as [[t x3]| |] eqn:E3; cbn [bind] in E; try discriminate end. injection E as <- <-. apply IH in E3.
  eapply grows_trans; [|eapply grows_trans; [|exact E3]].
  - destruct fg; [injection E1 as <- <-; apply grows_refl|]. destruct (defaultOwner g) as [o| |]; cbn [bind] in E1; try discriminate. injection E1 as <- <-. apply grows_cache.
  - destruct fu; [injection E2 as <- <-; apply grows_refl|]. destruct (defaultOwner u) as [o| |]; cbn [bind] in E2; try discriminate. injection E2 as <- <-. apply grows_cache.
Qed.
Lemma pathDefaults_grows g u m l : forall x l' x', pathDefaults g u m x l = Ok (l', x') -> grows x x'.
Proof.
  induction l as [|[k [[fg fm] fu]] l IH]; intros x l' x' E; cbn [pathDefaults] in E; [injection E as <- <-; apply grows_refl|].
  match type of E with bind ?e _ = _ => destruct e as [[g1 x1]| |] eqn:E1; cbn [bind] in E; try discriminate end.
  match type of E with bind ?e _ = _ => destruct e as [[g2 x2]| |] eqn:E2; cbn [bind] in E; try discriminate end.
  match type of E with bind ?e _ = _ => destruct e as [[t x3]| |] eqn:E3; cbn [bind] in E; try discriminate end. injection E as <- <-. apply IH in E3.
  eapply grows_trans; [|eapply grows_trans; [|exact E3]].
  - destruct fg; [injection E1 as <- <-; apply grows_refl|]. destruct (defaultOwner g) as [o| |]; cbn [bind] in E1; try discriminate. injection E1 as <- <-. apply grows_cache.
  - destruct fu; [injection E2 as <- <-; apply grows_refl|]. destruct (defaultOwner u) as [o| |]; cbn [bind] in E2; try discriminate. injection E2 as <- <-. apply grows_cache.
Qed.
Lemma addMissing_in l s : In s (strLstAddIfMissing l s).
Proof.
  unfold strLstAddIfMissing. destruct (existsb (fun x => strEqb x s) l) eqn:E; [|apply in_or_app; right; now left].
  apply existsb_exists in E as (x & Hx & E). apply strEqb_eq in E. now subst.
Qed.
Theorem own_label sha bufSize sc base text m : manifestNewLoad sha bufSize sc base text = Ok m ->
  exists l, fileEntries text l /\ ((exists v, In (sBackup, kReferenceList, v) l) \/
    exists label, mbLabel (mnBackup m) = Some label /\ In label (mxReferences (msCtx (mnFiles m)))).
Proof.
  intros E. unfold manifestNewLoad in E.
  destruct (infoNewLoad mload (loadCallback sc) sha bufSize text (loadInit base)) as [[[ver cip] ld]| |] eqn:Ei; cbn [bind] in E; try discriminate.
  apply accepted_content in Ei as (l & c & b & H1 & _ & _ & H4 & _). exists l. split; [exact H1|]. cbn [snd] in H4. apply feed_found in H4.
  destruct H4 as [H4|(v & H4)]; [|left; exists v; apply filter_In in H4; apply H4]. cbn in H4.
  rewrite H4 in E. destruct (mbLabel (ldBackup ld)) as [r|] eqn:Er; [|discriminate]. cbn [bind] in E.
  match type of E with bind ?e _ = _ => destruct e as [[links x1]| |] eqn:E1; cbn [bind] in E; try discriminate end.
  match type of E with bind ?e _ = _ => destruct e as [[paths x2]| |] eqn:E2; cbn [bind] in E; try discriminate end.
  destruct (find _ _); [|discriminate]. injection E as <-. right. exists r. cbn. split; [exact Er|].
  apply linkDefaults_grows in E1 as (E1 & _). apply pathDefaults_grows in E2 as (E2 & _). rewrite E2, E1. cbn. apply addMissing_in.
Qed.
