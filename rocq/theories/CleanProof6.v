From Verif Require Import Base Str ManifestPackModel ManifestModel LinkCheckModel LinkCheckProof2 CleanModel CleanSpec CleanProof CleanProof2 CleanProof3 CleanProof4 CleanProof5.
Open Scope Z_scope.

Section Sys.
Variables (maxLinks : nat) (fail : nat -> bool) (part : nat -> path -> bool) (ev : env) (ru rg : option str).
Let run := run maxLinks fail part ev ru rg.
Let after := after maxLinks fail part ev ru rg.
Let step1 := step1One maxLinks fail part ev ru rg.

(** ** Without delta *)
Section NoDelta.
Variable f0 : fs.
Let I (f : fs) : Prop := wf f /\ ext f0 f.
Let E (f : fs) : Prop := ext f0 f.
Let free (p : path) : Prop := True.
Lemma nd_IE f : I f -> E f. Proof. now intros [_ H]. Qed.
Lemma nd_wf f : I f -> wf f. Proof. now intros [H _]. Qed.
Lemma nd_put f p c e : I f -> isDir f p -> get f (p ++ [c]) = None -> I (put f (p ++ [c]) e).
Proof. intros [W X] D G. split; [now apply wf_put|]. eapply ext_trans; [exact X|now apply ext_put]. Qed.
Lemma nd_at f p g : I f -> free p -> (forall e, eKind (g e) = eKind e) -> I (attr p g f).
Proof. intros [W X] _ K. split; [now apply wf_attr|]. eapply ext_trans; [exact X|now apply ext_attr]. Qed.
Lemma nd_new f p : I f -> get f p = None -> free p. Proof. exact (fun _ _ => Logic.I). Qed.
Lemma nd_cleanDir fuel m o name r base : wf f0 -> emptyBut f0 o base r -> isDir f0 r ->
  hoare I (cleanDir fail part ev ru rg fuel m (ignoreList o) true name r base) (fun _ => I) E.
Proof.
  intros W0 EB D s s' x [W X] H. apply cleanDir_goal in H; [|now apply wf_tree|now destruct W]. pose proof H as HG. destruct H as ((S1 & _ & O) & AT & KP & _).
  assert (EX : ext f0 (cFs s')).
  { intros q e G. destruct (X q e G) as (e1 & G1 & Sm). assert (G' : get (cFs s') q <> None).
    { destruct (below r q) eqn:B; [|rewrite O by exact B; congruence]. apply below_iff in B as [rel ->]. destruct rel as [|n rest]; [rewrite app_nil_r in *; congruence|].
      apply KP. pose proof (wf_closed f0 r W0 [] n rest) as C. cbn in C. destruct (get f0 (r ++ [n])) as [y|] eqn:Gy; [|elim C; congruence].
      destruct (EB n y Gy) as (-> & F & Ii). destruct rest as [|k rest].
      - apply want_keep. cbn. destruct (X _ _ Gy) as (y' & Gy' & Sy). rewrite Gy'. unfold isFile in F. unfold same in Sy. rewrite <- Sy. destruct (eKind y); try discriminate. auto.
      - rewrite app_cons in G. pose proof (wf_tree f0 W0 _ _ _ _ _ G Gy) as K. unfold isFile in F. rewrite K in F. discriminate. }
    destruct (get (cFs s') q) as [e'|] eqn:Ge'; [|congruence]. exists e'. split; [reflexivity|]. destruct (S1 _ _ Ge') as (d & Gd & Sd). unfold same in *. congruence. }
  destruct x as [[]|y|]; [|exact EX|exact EX]. split; [|exact EX]. eapply wf_cleanDir; [exact W| |exact HG].
  destruct D as [->|(e & G & K)]; [now left|]. destruct (X _ _ G) as (e' & G' & Sm). right. exists e'. split; [exact G'|]. unfold same in Sm. congruence.
Qed.
Lemma nd_step2 fuel m m' o t d : wf f0 -> coDelta o = false -> step1 f0 m o t = Ok d -> hoare I (step2One maxLinks fail part ev ru rg fuel m' o d) (fun _ => I) E.
Proof.
  intros W0 ND S1. apply step1_cases in S1 as (T & B & TP & H). unfold step2One.
  destruct H as [(-> & _)|(-> & r & e & Hi & _ & _ & H)].
  - eapply h_bind; [apply h_find, nd_IE|]. intros mp. eapply h_bind.
    + eapply h_weak; [apply (h_pathCreate maxLinks fail ev I nd_wf)|..].
      * intros f p c x. intros. now apply nd_put.
      * intros f [A _]. exact A.
      * intros a f A. exact A.
      * apply nd_IE.
    + intros a. eapply h_bind; [apply h_reads, nd_IE|]. intros l. eapply h_weak; [apply (h_own fail ev ru rg I E free nd_IE nd_at l); exact Logic.I|..]; auto. now intros f [A _].
  - rewrite T. destruct (mtFile t) eqn:MF; [apply h_ret; auto|]. destruct H as [K EB]; [exact ND|exact eq_refl|now destruct W0|].
    eapply h_bind; [apply h_find, nd_IE|]. intros mp. eapply h_bind; [apply h_reads; intros f [A _]; now apply nd_IE|]. intros i.
    intros s s' x (([W X] & FP) & Ei). destruct (info_ext _ _ _ _ _ _ _ X Hi) as (e' & Ei' & Sm & _). rewrite Ei' in Ei. injection Ei as <-.
    assert (HB : hoare I (mbind (reads (fun f => real maxLinks f false (cdPath d))) (fun l =>
            mbind (cleanOwnership fail ev ru rg l (mpUser mp) (mpGroup mp) (eUser e') (eGroup e')) (fun _ =>
            mbind (cleanMode fail r (mpMode mp) e') (fun _ =>
            match eKind e' with
            | KPath => cleanDir fail part ev ru rg fuel m' (ignoreList o) true (cdName d) r (cdBase d)
            | _ => throw EFileOpen
            end)))) (fun _ => I) E).
    { eapply h_bind; [apply h_reads, nd_IE|]. intros l. eapply h_bind.
      - eapply h_weak; [apply (h_own fail ev ru rg I E free nd_IE nd_at l); exact Logic.I|..]; cbn; [now intros f [A _]|intros a f A; exact A|auto].
      - intros a. eapply h_bind; [apply (h_mode fail I E free nd_IE nd_at r); exact Logic.I|]. intros a'. unfold same in Sm. rewrite <- Sm, K.
        apply nd_cleanDir; auto. eapply info_dir; eassumption. }
    apply HB. split; assumption.
Qed.
Lemma nd_after fuel m m' o ds pg : wf f0 -> coDelta o = false -> mapR (step1 f0 m o) (cmTargets m) = Ok ds -> hoare I (after fuel m' o ds pg) (fun _ => I) E.
Proof.
  intros W0 ND M1. apply mapR_inv in M1. eapply h_bind.
  - apply h_forM; [apply nd_IE|]. intros d Hd. destruct (Forall2_right _ _ _ d M1 Hd) as (t & _ & Ht). eapply nd_step2; eassumption.
  - intros a. eapply h_bind.
    + apply h_forM; [apply nd_IE|]. intros mp _. apply (h_step3 maxLinks fail part ev ru rg I E free nd_IE nd_wf); auto using nd_at, nd_put. exact nd_new.
    + intros a'. eapply h_bind.
      * apply h_forM; [apply nd_IE|]. intros k _. apply (h_linkCreate maxLinks fail part ev ru rg I E free nd_IE nd_wf nd_at nd_new); auto using nd_put.
      * intros a''. now apply h_ret.
Qed.
End NoDelta.

Lemma splitSlash_app a b : splitSlash (slashed a b) = splitSlash a ++ splitSlash b.
Proof.
  unfold slashed. induction a as [|c a IH]; [reflexivity|]. cbn [app splitSlash]. destruct (c =? 47); [cbn; now rewrite IH|]. rewrite IH.
  destruct (splitSlash a) as [|h t] eqn:X; [|reflexivity]. destruct a; cbn in X; [discriminate|]. destruct (_ =? 47) in X; [discriminate|]. destruct (splitSlash a) in X; discriminate.
Qed.
Lemma control_split pg : splitSlash (controlPath pg) = splitSlash pg ++ [sGlobal; sPgControl].
Proof. unfold controlPath. rewrite !splitSlash_app. reflexivity. Qed.
(** No pg_control in a data directory that is missing or only has files that are ignored *)
Lemma ignore_not_global o : ~ In sGlobal (ignoreList o).
Proof. destruct o as [a [] [] d]; vm_compute; intuition discriminate. Qed.
Lemma nd_control m o b ds s : wf (cFs s) -> baseOk m b -> coDelta o = false -> mapR (step1 (cFs s) m o) (cmTargets m) = Ok ds ->
  storageExists maxLinks (cFs s) (controlPath (mtPath b)) = Ok false \/ exists x, storageExists maxLinks (cFs s) (controlPath (mtPath b)) = Err x.
Proof.
  intros W (BF & BI & BP & BM & BA) ND M1. apply mapR_inv in M1. destruct (Forall2_left _ _ _ b M1 BI) as (d & _ & Hd).
  apply step1_cases in Hd as (T & B & TP & H). unfold targetPathOf, manifestTargetPath in TP. rewrite BA, BP in TP. cbn [bind negb andb] in TP. injection TP as TP.
  unfold storageExists, info. unfold real. rewrite control_split. rewrite TP.
  destruct H as [(_ & Hi)|(_ & r & e & Hi & _ & _ & H)].
  - unfold info, real in Hi. destruct (resolve maxLinks (cFs s) true [] (splitSlash (cdPath d))) as [r|x|] eqn:R; [|destruct x; try discriminate|discriminate].
    + destruct r as [|k r]; [discriminate|]. destruct (get (cFs s) (k :: r)) eqn:G; [discriminate|].
      destruct (resolve_app (cFs s) true [sGlobal; sPgControl] ltac:(discriminate) _ _ _ _ R) as [(x & ->)|(n & ->)].
      * destruct x; (left; reflexivity) || (right; eexists; reflexivity).
      * left. rewrite resolve_unfold. destruct (get (cFs s) ((k :: r) ++ [sGlobal])) as [y|] eqn:Gy.
        -- destruct W as (_ & W & _). destruct (W _ _ _ Gy) as [A|(z & A & _)]; [discriminate|congruence].
        -- reflexivity.
    + rewrite (resolve_app_err _ true [sGlobal; sPgControl] ltac:(discriminate) _ _ _ _ R). now left.
  - destruct H as [K EB]; [exact ND|exact BM|now destruct W|]. unfold info, real in Hi.
    destruct (resolve maxLinks (cFs s) true [] (splitSlash (cdPath d))) as [q|x|] eqn:R; [|destruct x; discriminate|discriminate].
    assert (q = r) as ->. { destruct q as [|k q]; [now injection Hi as <- _|]. destruct (get (cFs s) (k :: q)); [now injection Hi as <- _|discriminate]. }
    destruct (resolve_app (cFs s) true [sGlobal; sPgControl] ltac:(discriminate) _ _ _ _ R) as [(x & ->)|(n & ->)].
    + destruct x; (left; reflexivity) || (right; eexists; reflexivity).
    + left. rewrite resolve_unfold. destruct (get (cFs s) (r ++ [sGlobal])) as [y|] eqn:Gy.
      * destruct (EB _ _ Gy) as (_ & _ & Ii). now apply ignore_not_global in Ii.
      * reflexivity.
Qed.
Lemma nodelta_keeps fuel m o b s s' x : wf (cFs s) -> baseOk m b -> coDelta o = false -> run fuel m o s = (s', x) -> ext (cFs s) (cFs s').
Proof.
  intros W BO ND H. apply run_cases in H as [(-> & _)|(ds & b' & M1 & B & H)]; [apply ext_refl|].
  assert (b' = b) as -> by (destruct BO; congruence).
  unfold mbind at 1 in H. unfold removeControl in H. unfold mbind at 1 in H. unfold reads at 1 in H. fold (controlPath (mtPath b)) in H.
  destruct (nd_control m o b ds s W BO ND M1) as [X|(e & X)]; rewrite X in H.
  - cbn [ret] in H. eapply (nd_after (cFs s)) in H; eauto.
    + destruct x; [exact (proj2 H)|exact H|exact H].
    + split; [exact W|apply ext_refl].
  - injection H as <- <-. apply ext_refl.
Qed.
(** ** Errors before anything is changed *)
Lemma nodelta_error fuel m o t p r e n y s s' x : NoDup (map fst (cFs s)) -> coDelta o = false -> In t (cmTargets m) -> mtFile t = None -> targetPathOf m o t = Ok p ->
  info maxLinks (cFs s) true p = Ok (Some (r, e)) -> get (cFs s) (r ++ [n]) = Some y ->
  ~ (mtName t = pgData /\ isFile y = true /\ In n (ignoreList o)) -> run fuel m o s = (s', x) -> s' = s /\ forall a, x <> Ok a.
Proof.
  intros N D Ht MF TP Hi G NB H. eapply run_unchanged in H; eauto. intros d S1. apply step1_cases in S1 as (T & B & TP' & S1).
  rewrite TP in TP'. injection TP' as TP'. destruct S1 as [(_ & S1)|(_ & r' & e' & Hi' & _ & _ & S1)]; [congruence|].
  rewrite <- TP', Hi in Hi'. injection Hi' as <- <-. destruct S1 as [_ EB]; auto. destruct (EB _ _ G) as (Hb & Hf & Hin). rewrite B in Hb. apply strEqb_eq in Hb. auto.
Qed.
Lemma owner_error fuel m o t p r e s s' x : In t (cmTargets m) -> targetPathOf m o t = Ok p ->
  info maxLinks (cFs s) true p = Ok (Some (r, e)) -> (evUser ev <> 0 /\ evUser ev <> eUser e) \/ Z.land (eMode e) 448 <> 448 ->
  run fuel m o s = (s', x) -> s' = s /\ forall a, x <> Ok a.
Proof.
  intros Ht TP Hi NB H. eapply run_unchanged in H; eauto. intros d S1. apply step1_cases in S1 as (T & B & TP' & S1).
  rewrite TP in TP'. injection TP' as TP'. destruct S1 as [(_ & S1)|(_ & r' & e' & Hi' & U & Mo & _)]; [congruence|].
  rewrite <- TP', Hi in Hi'. injection Hi' as <- <-. tauto.
Qed.
End Sys.
