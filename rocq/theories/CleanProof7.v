From Verif Require Import Base Str ManifestPackModel ManifestModel LinkCheckModel LinkCheckProof2 CleanModel CleanSpec CleanProof CleanProof2 CleanProof3 CleanProof4 CleanProof5 CleanProof6.
Open Scope Z_scope.

Lemma pgPath_tblspc pg n : strBeginsWith n pgTblspc = true -> pgPathOf pg (slashed pgData n) = pgPathOf pg n.
Proof.
  intros H. unfold strBeginsWith in H. apply strEqb_eq in H. rewrite <- (firstn_skipn (length pgTblspc) n), H. reflexivity.
Qed.

Section Sys.
Variables (maxLinks : nat) (fail : nat -> bool) (part : nat -> path -> bool) (ev : env) (ru rg : option str).
Let run := run maxLinks fail part ev ru rg.
Let after := after maxLinks fail part ev ru rg.
Let step1 := step1One maxLinks fail part ev ru rg.

(** ** Well formed up to step 3 *)
Lemma control_wf pg : hoare wf (removeControl maxLinks fail pg) (fun _ => wf) (fun _ => True).
Proof.
  unfold removeControl. fold (controlPath pg). eapply h_bind; [now apply h_reads|]. intros x. destruct x; [|apply h_ret; tauto].
  eapply h_bind; [now apply h_reads|]. intros r. eapply h_bind with (Q := fun _ => wf).
  - apply h_call; [|auto]. intros f ((W & X) & R). apply wf_unlink; [exact W|]. intros e G K.
    unfold storageExists, info in X. unfold real in *. rewrite (resolve_follow _ _ _ _ _ R) in X by (right; eauto).
    destruct r as [|k r]; [discriminate|]. rewrite G in X. cbn in X. unfold isFile in X. rewrite K in X. discriminate.
  - intros a. apply h_call; auto.
Qed.
Lemma step2_wf fuel m o d : hoare wf (step2One maxLinks fail part ev ru rg fuel m o d) (fun _ => wf) (fun _ => True).
Proof.
  assert (OWN : forall p u g a b, hoare wf (cleanOwnership fail ev ru rg p u g a b) (fun _ => wf) (fun _ => True)).
  { intros. apply (h_own fail ev ru rg wf (fun _ => True) (fun _ => True)); auto using wf_attr. }
  assert (MOD : forall p mo e, hoare wf (cleanMode fail p mo e) (fun _ => wf) (fun _ => True)).
  { intros. apply (h_mode fail wf (fun _ => True) (fun _ => True)); auto using wf_attr. }
  unfold step2One. destruct (cdExists d).
  - destruct (mtFile _); [now apply h_ret|]. eapply h_bind; [now apply h_find|]. intros mp. eapply h_bind; [now apply h_reads|]. intros [[r e]|]; [|now apply h_throw].
    intros s s' x ((W & _) & Hi).
    assert (HB : hoare (fun f => wf f /\ (eKind e = KPath -> isDir f r)) (mbind (reads (fun f => real maxLinks f false (cdPath d))) (fun l =>
            mbind (cleanOwnership fail ev ru rg l (mpUser mp) (mpGroup mp) (eUser e) (eGroup e)) (fun _ =>
            mbind (cleanMode fail r (mpMode mp) e) (fun _ =>
            match eKind e with
            | KPath => cleanDir fail part ev ru rg fuel m (ignoreList o) true (cdName d) r (cdBase d)
            | _ => throw EFileOpen
            end)))) (fun _ => wf) (fun _ => True)).
    { assert (AT : forall f p g, wf f /\ (eKind e = KPath -> isDir f r) -> True -> (forall e, eKind (g e) = eKind e) -> wf (attr p g f) /\ (eKind e = KPath -> isDir (attr p g f) r)).
      { intros f p g [Wf D] _ K. split; [now apply wf_attr|]. intros Ke. destruct (D Ke) as [->|(y & Gy & Ky)]; [now left|]. right.
        destruct (ext_attr f p g K _ _ Gy) as (y' & Gy' & Sy). exists y'. split; [exact Gy'|]. unfold same in Sy. congruence. }
      eapply h_bind; [now apply h_reads|]. intros l. eapply h_bind.
      - eapply h_weak; [apply (h_own fail ev ru rg (fun f => wf f /\ (eKind e = KPath -> isDir f r)) (fun _ => True) (fun _ => True)); auto|..]; cbn; [tauto|intros a f A; exact A|auto].
      - intros a. eapply h_bind; [apply (h_mode fail (fun f => wf f /\ (eKind e = KPath -> isDir f r)) (fun _ => True) (fun _ => True)); auto|]. intros a'.
        destruct (eKind e) eqn:K; try (now apply h_throw). intros t t' y [Wt D] H. apply cleanDir_goal in H; [|now apply wf_tree|now destruct Wt].
        destruct y as [[]| |]; auto. eapply wf_cleanDir; [exact Wt|now apply D|exact H]. }
    apply HB. split; [exact W|]. eapply info_dir. exact Hi.
  - eapply h_bind; [now apply h_find|]. intros mp. eapply h_bind with (Q := fun _ => wf).
    + eapply h_weak; [apply (h_pathCreate maxLinks fail ev wf (fun f H => H))|..]; cbn; try tauto.
      intros. now apply wf_put.
    + intros a. eapply h_bind; [now apply h_reads|]. intros l. eapply h_weak; [apply OWN|..]; cbn; tauto.
Qed.

(** ** All paths and links exist afterwards *)
Lemma exists_ext f g p : ext f g -> existsAt maxLinks f p -> existsAt maxLinks g p.
Proof.
  intros X (r & R & T). exists r. unfold real in *. split; [eapply resolve_ext; eauto|]. destruct T as [T|T]; [now left|]. right.
  destruct (get f r) as [e|] eqn:G; [|congruence]. destruct (X _ _ G) as (e' & G' & _). congruence.
Qed.
Lemma info_some f p i : info maxLinks f false p = Ok (Some i) -> existsAt maxLinks f p.
Proof.
  unfold info. destruct (real maxLinks f false p) as [r|y|] eqn:R; [|destruct y; discriminate|discriminate]. intros H. exists r. split; [exact R|].
  destruct r as [|k r]; [now left|]. right. destruct (get f (k :: r)); [discriminate|discriminate].
Qed.
Lemma own_ext p u g a b s s' x : cleanOwnership fail ev ru rg p u g a b s = (s', x) -> ext (cFs s) (cFs s').
Proof.
  unfold cleanOwnership, chownAt, call, ret. destruct (_ || _); [destruct (fail _)|]; intros [= <- <-]; cbn; try apply ext_refl. now apply ext_attr.
Qed.
Definition grows (k : M unit) (p : str) : Prop := forall s s', wf (cFs s) -> k s = (s', Ok tt) -> wf (cFs s') /\ ext (cFs s) (cFs s') /\ existsAt maxLinks (cFs s') p.
Lemma link_grows pg k : grows (linkCreate maxLinks fail ev ru rg pg k) (pgPathOf pg (mlName k)).
Proof.
  intros s s' W H.
  assert (WE : wf (cFs s') /\ ext (cFs s) (cFs s')).
  { pose proof (h_linkCreate maxLinks fail part ev ru rg (fun f => wf f /\ ext (cFs s) f) (fun _ => True) (fun _ => True)) as L.
    eapply L in H; [exact H|..]; auto; cbn.
    - tauto.
    - intros f p g [A B] _ K. split; [now apply wf_attr|]. eapply ext_trans; [exact B|now apply ext_attr].
    - intros f p c e [A B] D G _. split; [now apply wf_put|]. eapply ext_trans; [exact B|now apply ext_put].
    - split; [exact W|apply ext_refl]. }
  destruct WE as [W' X]. split; [exact W'|]. split; [exact X|]. unfold linkCreate in H. unfold mbind at 1 in H. unfold reads at 1 in H.
  destruct (info maxLinks (cFs s) false (pgPathOf pg (mlName k))) as [[i|]|y|] eqn:Hi; try discriminate.
  - injection H as <-. eapply info_some. exact Hi.
  - unfold mbind at 1 in H. unfold reads at 1 in H. destruct (real maxLinks (cFs s) false (pgPathOf pg (mlName k))) as [r|y|] eqn:R; try discriminate.
    unfold mbind at 1 in H. unfold createAt, call in H. destruct (fail (cN s)); [discriminate|].
    destruct (info_none_real _ _ _ _ _ Hi R) as [N G].
    apply own_ext in H. cbn [cFs] in H. eapply exists_ext; [exact H|]. exists r. split.
    + unfold real in *. apply resolve_put; auto; [|now left]. intros [A B]. subst r. now elim N.
    + right. rewrite get_put, pathEqb_refl. discriminate.
Qed.
Lemma step3_grows fuel m pg mp : strEqb (mpName mp) pgTblspc = false -> grows (step3One maxLinks fail ev ru rg fuel m pg mp) (pgPathOf pg (mpName mp)).
Proof.
  intros NT s s' W H.
  assert (WE : wf (cFs s') /\ ext (cFs s) (cFs s')).
  { pose proof (h_step3 maxLinks fail part ev ru rg (fun f => wf f /\ ext (cFs s) f) (fun _ => True) (fun _ => True)) as L.
    eapply L in H; [exact H|..]; auto; cbn.
    - tauto.
    - intros f p c e [A B] D G _. split; [now apply wf_put|]. eapply ext_trans; [exact B|now apply ext_put].
    - intros f p g [A B] _ K. split; [now apply wf_attr|]. eapply ext_trans; [exact B|now apply ext_attr].
    - intros f p c e [A B] D G _. split; [now apply wf_put|]. eapply ext_trans; [exact B|now apply ext_put].
    - split; [exact W|apply ext_refl]. }
  destruct WE as [W' X]. split; [exact W'|]. split; [exact X|]. unfold step3One in H. rewrite NT in H.
  destruct (findLink (cmLinks m) _) as [k|] eqn:FL.
  - apply link_grows in H as (_ & _ & H); [|exact W]. apply find_some in FL as [_ FL]. apply strEqb_eq in FL.
    destruct (strBeginsWith (mpName mp) pgTblspc) eqn:B.
    + rewrite FL in H. now rewrite pgPath_tblspc in H.
    + now rewrite FL in H.
  - unfold mbind at 1 in H. unfold reads at 1 in H. destruct (info maxLinks (cFs s) false (pgPathOf pg (mpName mp))) as [[i|]|y|] eqn:Hi; try discriminate.
    + injection H as <-. eapply info_some. exact Hi.
    + unfold mbind at 1 in H. destruct fuel as [|fuel]; [discriminate|]. cbn [pathCreate] in H.
      destruct (mkdir maxLinks fail ev (splitSlash (pgPathOf pg (mpName mp))) (mpMode mp) s) as [s1 o1] eqn:M1.
      apply (h_mkdir maxLinks fail ev wf (fun _ A => A)) in M1; [|intros; now apply wf_put|exact W].
      destruct o1 as [[|]|y|]; [discriminate| |destruct y; discriminate|discriminate]. cbn [andb] in H.
      destruct M1 as [(_ & _ & r & _ & R2 & _ & G2)|(N & _)]; [|congruence].
      unfold mbind at 1 in H. unfold reads at 1 in H. unfold real at 1 in H. rewrite R2 in H. apply own_ext in H. eapply exists_ext; [exact H|].
      exists r. split; [exact R2|now right].
Qed.
Lemma forM_grows {A} (l : list A) k (p : A -> str) : (forall a, In a l -> grows (k a) (p a)) -> forall s s', wf (cFs s) -> forM l k s = (s', Ok tt) ->
  wf (cFs s') /\ ext (cFs s) (cFs s') /\ forall a, In a l -> existsAt maxLinks (cFs s') (p a).
Proof.
  induction l as [|a l IH]; intros G s s' W; cbn [forM].
  - intros [= <-]. split; [exact W|]. split; [apply ext_refl|]. intros a [].
  - unfold mbind. destruct (k a s) as [s1 [[]|y|]] eqn:K; try discriminate. intros H. apply G in K as (W1 & X1 & E1); [|now left|exact W].
    apply IH in H as (W2 & X2 & E2); [|intros b Hb; apply G; now right|exact W1]. split; [exact W2|]. split; [eapply ext_trans; eassumption|].
    intros b [<-|Hb]; [eapply exists_ext; eassumption|auto].
Qed.
Lemma success_exists fuel m o s s' m' b : wf (cFs s) -> run fuel m o s = (s', Ok m') -> manifestTargetFind (cmTargets m) pgData = Ok b ->
  (forall mp, In mp (cmPaths m) -> mpName mp <> pgTblspc -> existsAt maxLinks (cFs s') (pgPathOf (mtPath b) (mpName mp))) /\
  (forall k, In k (cmLinks m) -> existsAt maxLinks (cFs s') (pgPathOf (mtPath b) (mlName k))).
Proof.
  intros W H B. apply run_cases in H as [(_ & N & _)|(ds & b' & M1 & B' & H)]; [now elim (N m')|]. rewrite B in B'. injection B' as <-.
  assert (PS : cmPaths (skipFiles o m) = cmPaths m /\ cmLinks (skipFiles o m) = cmLinks m) by (unfold skipFiles; now destruct (_ && _)). destruct PS as [PS LS].
  unfold mbind at 1 in H. destruct (removeControl _ _ _ s) as [s1 [[]|y|]] eqn:E1; try discriminate. apply control_wf in E1; [|exact W].
  unfold CleanProof5.after in H. unfold mbind at 1 in H. destruct (forM ds _ s1) as [s2 [[]|y|]] eqn:E2; try discriminate.
  eapply (h_forM ds _ wf (fun _ => True)) in E2; [|auto|intros d _; apply step2_wf|exact E1].
  unfold mbind at 1 in H. rewrite PS in H. destruct (forM (cmPaths m) _ s2) as [s3 [[]|y|]] eqn:E3; try discriminate.
  unfold mbind at 1 in H. rewrite LS in H. destruct (forM (cmLinks m) _ s3) as [s4 [[]|y|]] eqn:E4; try discriminate. injection H as <- <-.
  assert (G3 : wf (cFs s3) /\ forall mp, In mp (cmPaths m) -> mpName mp <> pgTblspc -> existsAt maxLinks (cFs s3) (pgPathOf (mtPath b) (mpName mp))).
  { clear E4 W E1 B PS M1 LS. clear s1. revert s2 s3 E2 E3. induction (cmPaths m) as [|a l IH]; intros s2 s3 W; cbn [forM].
    - intros [= <-]. split; [exact W|]. intros a [].
    - unfold mbind. destruct (step3One _ _ _ _ _ _ _ _ a s2) as [s1 [[]|y|]] eqn:K; try discriminate. intros H.
      assert (G : wf (cFs s1) /\ (mpName a <> pgTblspc -> existsAt maxLinks (cFs s1) (pgPathOf (mtPath b) (mpName a)))).
      { destruct (strEqb_spec (mpName a) pgTblspc) as [E|E].
        - unfold step3One in K. rewrite E, strEqb_refl in K. injection K as <-. split; [exact W|congruence].
        - apply step3_grows in K as (A & _ & C); auto. destruct (strEqb_spec (mpName a) pgTblspc); congruence. }
      destruct G as [W1 G1].
      assert (X : ext (cFs s1) (cFs s3)).
      { pose proof (h_forM l (step3One maxLinks fail ev ru rg fuel (skipFiles o m) (mtPath b)) (fun f => wf f /\ ext (cFs s1) f) (fun _ => True)) as L.
        eapply L in H; [exact (proj2 H)|auto| |split; [exact W1|apply ext_refl]]. intros c _.
        apply (h_step3 maxLinks fail part ev ru rg _ (fun _ => True) (fun _ => True)); auto; cbn.
        - tauto.
        - intros f p c0 e [A B] D G _. split; [now apply wf_put|]. eapply ext_trans; [exact B|now apply ext_put].
        - intros f p g [A B] _ K'. split; [now apply wf_attr|]. eapply ext_trans; [exact B|now apply ext_attr].
        - intros f p c0 e [A B] D G _. split; [now apply wf_put|]. eapply ext_trans; [exact B|now apply ext_put]. }
      apply IH in H as (W3 & E3); [|exact W1]. split; [exact W3|]. intros mp [<-|Hm] N; [eapply exists_ext; eauto|auto]. }
  destruct G3 as [W3 G3]. apply (forM_grows _ _ (fun k => pgPathOf (mtPath b) (mlName k))) in E4 as (_ & X4 & G4); [|intros k _; apply link_grows|exact W3].
  split; [|exact G4]. intros mp Hm N. eapply exists_ext; [exact X4|]. auto.
Qed.
End Sys.
