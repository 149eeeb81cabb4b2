From Verif Require Import Base Str ManifestPackModel ManifestModel LinkCheckModel CleanModel CleanSpec CleanProof CleanProof2 CleanProof3 CleanProof4.
Open Scope Z_scope.

Lemma mapR_inv {A B} (g : A -> res B) l ds : mapR g l = Ok ds -> Forall2 (fun a b => g a = Ok b) l ds.
Proof.
  revert ds. induction l as [|a l IH]; intros ds; cbn; [intros [= <-]; constructor|].
  destruct (g a) as [b|x|] eqn:E; cbn; try discriminate. destruct (mapR g l) as [t|x|]; cbn; try discriminate. intros [= <-]. constructor; auto.
Qed.
Lemma Forall2_left {A B} (P : A -> B -> Prop) l l' a : Forall2 P l l' -> In a l -> exists b, In b l' /\ P a b.
Proof. induction 1 as [|x y l l' H1 H2 IH]; [intros []|]. intros [->|H]; [exists y; split; [now left|exact H1]|]. destruct (IH H) as (b & Hb & Pb). exists b. split; [now right|exact Pb]. Qed.
Lemma Forall2_right {A B} (P : A -> B -> Prop) l l' b : Forall2 P l l' -> In b l' -> exists a, In a l /\ P a b.
Proof. induction 1 as [|x y l l' H1 H2 IH]; [intros []|]. intros [->|H]; [exists x; split; [now left|exact H1]|]. destruct (IH H) as (a & Ha & Pa). exists a. split; [now right|exact Pa]. Qed.
Lemma mapR_bad {A B} (g : A -> res B) l a : In a l -> (forall b, g a <> Ok b) -> forall ds, mapR g l <> Ok ds.
Proof.
  intros H N ds E. apply mapR_inv in E. apply (Forall2_left _ _ _ a) in E; [|exact H]. destruct E as (b & _ & Hb). exact (N b Hb).
Qed.

Section Sys.
Variables (maxLinks : nat) (fail : nat -> bool) (part : nat -> path -> bool) (ev : env) (ru rg : option str).

(** * What nothing can break *)
Section Any.
Variable J : fs -> Prop.
Hypothesis Jdel : forall f bad, J f -> J (del f bad).
Hypothesis Jattr : forall f p g, J f -> (forall e, eKind (g e) = eKind e) -> J (attr p g f).
Hypothesis Jput : forall f p e, J f -> isFile e = false -> J (put f p e).
Let hJ {A} (m : M A) : Prop := hoare J m (fun _ => J) J.
Lemma j_own p user group u g : hJ (cleanOwnership fail ev ru rg p user group u g).
Proof. unfold cleanOwnership. destruct (_ || _); [|now apply h_ret]. apply h_call; auto. Qed.
Lemma j_mode p mode e : hJ (cleanMode fail p mode e).
Proof. unfold cleanMode. destruct (negb _); [|now apply h_ret]. apply h_call; auto. Qed.
Lemma j_bind {A B} (m : M A) (k : A -> M B) : hJ m -> (forall a, hJ (k a)) -> hJ (mbind m k).
Proof. intros H1 H2. eapply h_bind; [exact H1|]. intros a. apply H2. Qed.
Lemma j_reads {A} (g : fs -> res A) : hJ (reads g).
Proof. eapply h_weak; [apply h_reads with (P := J) (E := J)|..]; cbn; tauto. Qed.
Lemma j_forM {A} (l : list A) k : (forall a, hJ (k a)) -> hJ (forM l k).
Proof. intros H. apply h_forM; [auto|intros a _; apply H]. Qed.
Lemma j_find {A} (o : option A) : hJ (findOr o).
Proof. destruct o; [now apply h_ret|now apply h_throw]. Qed.
Lemma j_unlink p : hJ (unlinkAt fail p).
Proof. apply h_call; auto. Qed.
Lemma j_create p e : isFile e = false -> hJ (createAt fail p e).
Proof. intros H. apply h_call; auto. Qed.
Lemma j_remove p : hJ (pathRemoveAt fail part p).
Proof. intros s s' o Hj. unfold pathRemoveAt, call. destruct (fail (cN s)); intros [= <- <-]; cbn; auto. Qed.
Lemma j_cleanOne m ig delta rec name r base c : (forall a b, hJ (rec a b)) -> hJ (cleanOne fail part ev ru rg m ig delta rec name r base c).
Proof.
  intros H. destruct c as [n e]. unfold cleanOne. destruct (_ && _ && _); [now apply h_ret|]. destruct (negb delta); [now apply h_throw|].
  destruct (eKind e).
  - destruct (findPath _ _); [destruct (findLink _ _)|]; try apply j_unlink. apply j_bind; [apply j_own|intros; apply j_mode].
  - destruct (findPath _ _); [destruct (findLink _ _)|]; try apply j_remove. apply j_bind; [apply j_own|intros; apply j_bind; [apply j_mode|auto]].
  - destruct (findLink _ _); [|apply j_unlink]. destruct (negb _); [apply j_unlink|apply j_own].
  - apply j_unlink.
Qed.
Lemma j_cleanDir m ig delta fuel : forall name r base, hJ (cleanDir fail part ev ru rg fuel m ig delta name r base).
Proof.
  induction fuel as [|fuel IH]; intros name r base; cbn [cleanDir]; [now apply h_throw|]. apply j_bind; [apply j_reads|]. intros l.
  apply j_forM. intros a. apply j_cleanOne. auto.
Qed.
Lemma j_mkdir p mode : hJ (mkdir maxLinks fail ev p mode).
Proof.
  unfold mkdir. apply j_bind.
  - intros s s' o Hj [= <- <-]. destruct (match resolve _ _ _ _ _ with Ok _ => _ | _ => _ end); exact Hj.
  - intros [[r|]|]; [|now apply h_ret|now apply h_throw]. apply j_bind; [now apply j_create|]. intros a. now apply h_ret.
Qed.
Lemma j_pathCreate fuel mode eoe np : forall p, hJ (pathCreate maxLinks fail ev fuel p eoe np mode).
Proof.
  induction fuel as [|fuel IH]; intros p; cbn [pathCreate]; [now apply h_throw|]. intros s s' o Hj.
  destruct (mkdir maxLinks fail ev p mode s) as [s1 o1] eqn:M1. apply j_mkdir in M1; [|exact Hj].
  destruct o1 as [b|x|].
  - destruct (b && eoe); intros [= <- <-]; exact M1.
  - assert (X : (s1, Err x) = (s', o) -> match o with Ok _ => J (cFs s') | _ => J (cFs s') end) by (intros [= <- <-]; exact M1).
    destruct x; try exact X. destruct np; [intros [= <- <-]; exact M1|].
    assert (HB : hJ (mbind (pathCreate maxLinks fail ev fuel (removelast p) eoe false mode) (fun _ => pathCreate maxLinks fail ev fuel p eoe false mode))).
    { apply j_bind; auto. }
    intros H. exact (HB _ _ _ M1 H).
  - intros [= <- <-]. exact M1.
Qed.
Lemma j_step2 fuel m o d : hJ (step2One maxLinks fail part ev ru rg fuel m o d).
Proof.
  unfold step2One. destruct (cdExists d).
  - destruct (mtFile _); [now apply h_ret|]. apply j_bind; [apply j_find|]. intros mp. apply j_bind; [apply j_reads|]. intros [[r e]|]; [|now apply h_throw].
    apply j_bind; [apply j_reads|]. intros l. apply j_bind; [apply j_own|]. intros _. apply j_bind; [apply j_mode|]. intros _.
    destruct (eKind e); try (now apply h_throw). apply j_cleanDir.
  - apply j_bind; [apply j_find|]. intros mp. apply j_bind; [apply j_pathCreate|]. intros _. apply j_bind; [apply j_reads|]. intros l. apply j_own.
Qed.
Lemma j_link pg k : hJ (linkCreate maxLinks fail ev ru rg pg k).
Proof.
  unfold linkCreate. apply j_bind; [apply j_reads|]. intros [x|]; [now apply h_ret|]. apply j_bind; [apply j_reads|]. intros r.
  apply j_bind; [now apply j_create|]. intros _. apply j_own.
Qed.
Lemma j_step3 fuel m pg mp : hJ (step3One maxLinks fail ev ru rg fuel m pg mp).
Proof.
  unfold step3One. destruct (strEqb _ _); [now apply h_ret|]. destruct (findLink _ _); [apply j_link|].
  apply j_bind; [apply j_reads|]. intros [x|]; [now apply h_ret|]. apply j_bind; [apply j_pathCreate|]. intros _. apply j_bind; [apply j_reads|]. intros r. apply j_own.
Qed.
Definition after (fuel : nat) (m : cman) (o : copts) (ds : list cdata) (pg : str) : M cman :=
  mbind (forM ds (step2One maxLinks fail part ev ru rg fuel m o)) (fun _ =>
  mbind (forM (cmPaths m) (step3One maxLinks fail ev ru rg fuel m pg)) (fun _ =>
  mbind (forM (cmLinks m) (linkCreate maxLinks fail ev ru rg pg)) (fun _ => ret m))).
Lemma j_after fuel m o ds pg : hJ (after fuel m o ds pg).
Proof.
  apply j_bind; [apply j_forM, j_step2|]. intros _. apply j_bind; [apply j_forM, j_step3|]. intros _. apply j_bind; [apply j_forM, j_link|]. intros _. now apply h_ret.
Qed.
Lemma j_control pg : hJ (removeControl maxLinks fail pg).
Proof.
  unfold removeControl. apply j_bind; [apply j_reads|]. intros x. destruct x; [|now apply h_ret]. apply j_bind; [apply j_reads|]. intros r.
  apply j_bind; [apply j_unlink|]. intros _. apply h_call; auto.
Qed.
End Any.

(** * The run *)
Definition run fuel m o := restoreCleanBuild maxLinks fail part ev ru rg fuel m o.
Lemma run_cases fuel m o s s' x : run fuel m o s = (s', x) ->
  (s' = s /\ (forall a, x <> Ok a) /\ ((forall ds, mapR (step1One maxLinks fail part ev ru rg (cFs s) m o) (cmTargets m) <> Ok ds) \/ (forall b, manifestTargetFind (cmTargets m) pgData <> Ok b))) \/
  exists ds b, mapR (step1One maxLinks fail part ev ru rg (cFs s) m o) (cmTargets m) = Ok ds /\ manifestTargetFind (cmTargets m) pgData = Ok b /\
    mbind (removeControl maxLinks fail (mtPath b)) (fun _ => after fuel (skipFiles o m) o ds (mtPath b)) s = (s', x).
Proof.
  unfold run, restoreCleanBuild. unfold mbind at 1. unfold reads at 1. destruct (mapR _ _) as [ds|e|] eqn:E1.
  - assert (T : cmTargets (skipFiles o m) = cmTargets m) by (unfold skipFiles; now destruct (_ && _)).
    unfold mbind at 1. unfold reads at 1. rewrite T. destruct (manifestTargetFind _ _) as [b|e|] eqn:E2; cbn [bind].
    + intros H. right. exists ds, b. auto.
    + intros [= <- <-]. left. split; [reflexivity|]. split; [discriminate|]. right. discriminate.
    + intros [= <- <-]. left. split; [reflexivity|]. split; [discriminate|]. right. discriminate.
  - intros [= <- <-]. left. split; [reflexivity|]. split; [discriminate|]. left. discriminate.
  - intros [= <- <-]. left. split; [reflexivity|]. split; [discriminate|]. left. discriminate.
Qed.
Lemma run_unchanged fuel m o s s' x t : run fuel m o s = (s', x) -> In t (cmTargets m) ->
  (forall d, step1One maxLinks fail part ev ru rg (cFs s) m o t <> Ok d) -> s' = s /\ forall a, x <> Ok a.
Proof.
  intros H Ht N. apply run_cases in H as [(A & B & _)|(ds & b & A & _)]; [auto|]. now apply (mapR_bad _ _ t) in A.
Qed.

(** ** Files are never added *)
Definition filesFrom (f0 f : fs) : Prop := forall q e, get f q = Some e -> isFile e = true -> exists d, get f0 q = Some d /\ same d e.
Lemma isFile_kind e e' : eKind e = eKind e' -> isFile e = isFile e'.
Proof. unfold isFile. now intros ->. Qed.
Lemma ff_del f0 f bad : filesFrom f0 f -> filesFrom f0 (del f bad).
Proof. intros H q e. rewrite get_del. destruct (bad q); [discriminate|apply H]. Qed.
Lemma ff_attr f0 f p g : filesFrom f0 f -> (forall e, eKind (g e) = eKind e) -> filesFrom f0 (attr p g f).
Proof.
  intros H K q e G F. apply sub_attr in G as (d & Gd & Sm); [|exact K]. destruct (H q d Gd) as (x & Hx & Sx).
  - now rewrite (isFile_kind _ _ Sm).
  - exists x. split; [exact Hx|]. unfold same in *. congruence.
Qed.
Lemma ff_put f0 f p e : filesFrom f0 f -> isFile e = false -> filesFrom f0 (put f p e).
Proof. intros H F q x. rewrite get_put. destruct (pathEqb p q); [|apply H]. intros [= <-]. congruence. Qed.
Lemma no_file fuel m o s s' x : run fuel m o s = (s', x) -> filesFrom (cFs s) (cFs s').
Proof.
  intros H. assert (R : filesFrom (cFs s) (cFs s)) by (intros q e A B; exists e; split; [exact A|reflexivity]).
  apply run_cases in H as [(-> & _)|(ds & b & _ & _ & H)]; [exact R|].
  assert (HB : hoare (filesFrom (cFs s)) (mbind (removeControl maxLinks fail (mtPath b)) (fun _ => after fuel (skipFiles o m) o ds (mtPath b))) (fun _ => filesFrom (cFs s)) (filesFrom (cFs s))).
  { apply j_bind; [apply j_control|intros _; apply j_after]; auto using ff_del, ff_attr, ff_put. }
  specialize (HB _ _ _ R H). now destruct x.
Qed.
(** ** pg_control *)
Definition noFile (c : path) (f : fs) : Prop := forall e, get f c = Some e -> isFile e = false.
Lemma nf_del c f bad : noFile c f -> noFile c (del f bad).
Proof. intros H e. rewrite get_del. destruct (bad c); [discriminate|apply H]. Qed.
Lemma nf_attr c f p g : noFile c f -> (forall e, eKind (g e) = eKind e) -> noFile c (attr p g f).
Proof. intros H K e G. apply sub_attr in G as (d & Gd & Sm); [|exact K]. rewrite <- (isFile_kind _ _ Sm). auto. Qed.
Lemma nf_put c f p e : noFile c f -> isFile e = false -> noFile c (put f p e).
Proof. intros H F x. rewrite get_put. destruct (pathEqb p c); [|apply H]. now intros [= <-]. Qed.
Lemma control_gone fuel m o s s' x b c : run fuel m o s = (s', x) -> manifestTargetFind (cmTargets m) pgData = Ok b ->
  storageExists maxLinks (cFs s) (controlPath (mtPath b)) = Ok true -> real maxLinks (cFs s) false (controlPath (mtPath b)) = Ok c ->
  cFs s' = cFs s \/ noFile c (cFs s').
Proof.
  intros H B X C. apply run_cases in H as [(-> & _)|(ds & b' & _ & B' & H)]; [now left|]. rewrite B in B'. injection B' as <-.
  unfold mbind at 1 in H. unfold removeControl in H. unfold mbind at 1 in H. unfold reads at 1 in H. fold (controlPath (mtPath b)) in H. rewrite X in H.
  unfold mbind at 1 in H. unfold reads at 1 in H. rewrite C in H. unfold mbind at 1 in H. unfold unlinkAt, call in H. destruct (fail (cN s)).
  { injection H as <- <-. now left. }
  assert (N1 : noFile c (del (cFs s) (pathEqb c))). { intros e. rewrite get_del, pathEqb_refl. discriminate. }
  cbn [cFs cN] in H. destruct (fail (S (cN s))); [injection H as <- <-; right; exact N1|]. right.
  assert (HB : hoare (noFile c) (after fuel (skipFiles o m) o ds (mtPath b)) (fun _ => noFile c) (noFile c)).
  { apply j_after; auto using nf_del, nf_attr, nf_put. }
  eapply HB in H; [destruct x; exact H|exact N1].
Qed.

(** * Without delta nothing is removed *)
Definition emptyBut (f : fs) (o : copts) (base : bool) (r : path) : Prop :=
  forall n x, get f (r ++ [n]) = Some x -> base = true /\ isFile x = true /\ In n (ignoreList o).
Lemma listing_empty f m o name r base l : snd (forM l (cleanOne fail part ev ru rg m (ignoreList o) false (fun _ _ => ret tt) name r base) (mkCst f 0)) = Ok tt ->
  forall n x, In (n, x) l -> base = true /\ isFile x = true /\ In n (ignoreList o).
Proof.
  induction l as [|[k y] l IH]; [intros _ n x []|]. cbn [forM]. unfold mbind at 1. unfold cleanOne at 1. cbn [negb].
  destruct (base && isFile y && strLstExists (ignoreList o) k) eqn:X; [|discriminate]. cbn [ret]. intros H n x [[= <- <-]|Hin]; [|exact (IH H n x Hin)].
  apply andb_true_iff in X as [X X3]. apply andb_true_iff in X as [X1 X2]. apply strLstExists_in in X3. auto.
Qed.
Lemma listing_nonempty f m o name r base l n x : In (n, x) l -> ~ (base = true /\ isFile x = true /\ In n (ignoreList o)) ->
  snd (forM l (cleanOne fail part ev ru rg m (ignoreList o) false (fun _ _ => ret tt) name r base) (mkCst f 0)) <> Ok tt.
Proof. intros H N E. exact (N (listing_empty _ _ _ _ _ _ _ E _ _ H)). Qed.
Lemma step1_cases f m o t d : step1One maxLinks fail part ev ru rg f m o t = Ok d ->
  cdTarget d = t /\ cdBase d = strEqb (mtName t) pgData /\ targetPathOf m o t = Ok (cdPath d) /\
  ((cdExists d = false /\ info maxLinks f true (cdPath d) = Ok None) \/
   (cdExists d = true /\ exists r e, info maxLinks f true (cdPath d) = Ok (Some (r, e)) /\
    (evUser ev = 0 \/ evUser ev = eUser e) /\ Z.land (eMode e) 448 = 448 /\
    (coDelta o = false -> mtFile t = None -> NoDup (map fst f) -> eKind e = KPath /\ emptyBut f o (cdBase d) r))).
Proof.
  unfold step1One, targetPathOf. destruct (manifestTargetPath _ _) as [p|y|]; cbn [bind]; try discriminate.
  set (ts := negb (mtIsPath t) && negb (mtTablespaceId t =? 0)). set (p' := if ts then slashed p (coTablespaceId o) else p).
  destruct (info maxLinks f true p') as [i|y|] eqn:Ei; cbn [bind]; try discriminate. destruct i as [[r e]|].
  - destruct (negb (userRoot ev) && negb (evUser ev =? eUser e)) eqn:X1; [discriminate|]. destruct (negb (Z.land (eMode e) 448 =? 448)) eqn:X2; [discriminate|].
    assert (A1 : evUser ev = 0 \/ evUser ev = eUser e).
    { apply andb_false_iff in X1 as [X1|X1]; apply negb_false_iff in X1; unfold userRoot in X1; apply Z.eqb_eq in X1; auto. }
    apply negb_false_iff, Z.eqb_eq in X2.
    destruct (if coDelta o then _ else _) as [[]|y|] eqn:X3; cbn [bind]; try discriminate. intros [= <-]. cbn [cdTarget cdBase cdPath cdExists].
    split; [reflexivity|]. split; [reflexivity|]. split; [reflexivity|]. right. split; [reflexivity|]. exists r, e. split; [exact Ei|]. split; [exact A1|]. split; [exact X2|].
    intros D F N. rewrite D, F in X3. destruct (eKind e) eqn:K; try discriminate. split; [reflexivity|]. intros n x Hx.
    eapply listing_empty; [exact X3|]. now apply children_in.
  - intros [= <-]. cbn [cdTarget cdBase cdPath cdExists]. auto 10.
Qed.
Lemma info_ext f g fl p r e : ext f g -> info maxLinks f fl p = Ok (Some (r, e)) -> exists e', info maxLinks g fl p = Ok (Some (r, e')) /\ same e e' /\ real maxLinks f fl p = Ok r.
Proof.
  intros X. unfold info, real. destruct (resolve maxLinks f fl [] (splitSlash p)) as [q|y|] eqn:R; [|destruct y; discriminate|discriminate].
  destruct q as [|k q].
  - intros [= <- <-]. rewrite (resolve_ext f g fl X _ _ _ _ R); [|now left]. eexists. split; [reflexivity|]. split; reflexivity.
  - destruct (get f (k :: q)) as [y|] eqn:G; [|discriminate]. intros [= <- <-]. rewrite (resolve_ext f g fl X _ _ _ _ R); [|right; congruence].
    destruct (X _ _ G) as (e' & G' & Sm). rewrite G'. eexists. split; [reflexivity|]. split; [exact Sm|reflexivity].
Qed.
Lemma info_dir f fl p r e : info maxLinks f fl p = Ok (Some (r, e)) -> eKind e = KPath -> isDir f r.
Proof.
  unfold info. destruct (real maxLinks f fl p) as [q|y|]; [|destruct y; discriminate|discriminate]. destruct q as [|k q]; [intros [= <- <-]; now left|].
  destruct (get f (k :: q)) as [y|] eqn:G; [|discriminate]. intros [= <- <-] K. right. eauto.
Qed.
End Sys.
