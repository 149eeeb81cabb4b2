(** C59: remapping of the targets of a restore *)
From Verif Require Import Base Str NumModel ManifestPackModel ManifestModel LinkCheckModel CleanModel RemapModel RemapSpec RemapProof RemapProof2 RemapProof3 RemapProof4 RemapProof5 RemapProof6.
Open Scope Z_scope.

(** After success every target and every link is the one specified, in order, and nothing else was added or lost. *)
Theorem C59_result o m m' : optsWf o -> mapWf m -> restoreManifestMap o m = Ok m' -> mapped o m m'.
Proof.
  intros Ho Hw E. destruct (whole_cases o m Ho Hw) as [(H1 & H2 & H3)|[(_ & H3)|(_ & _ & H3)]]; rewrite H3 in E; try discriminate.
  injection E as <-. now apply result_mapped.
Qed.
Print Assumptions C59_result.

(** It fails exactly if a tablespace has two paths, a key is not a tablespace, a link is not in the backup or the destination of a file has no directory;
    errors of tablespaces come first and there are no other errors. *)
Theorem C59_outcome o m : optsWf o -> mapWf m ->
  ((exists m', restoreManifestMap o m = Ok m') <-> ~ tsBad o m /\ ~ linkBad o m) /\
  (restoreManifestMap o m = Err EOther <-> tsBad o m) /\
  (restoreManifestMap o m = Err EOptionInvalidValue <-> ~ tsBad o m /\ linkBad o m) /\
  ((exists m', restoreManifestMap o m = Ok m') \/ restoreManifestMap o m = Err EOther \/ restoreManifestMap o m = Err EOptionInvalidValue).
Proof.
  intros Ho Hw. destruct (whole_cases o m Ho Hw) as [(H1 & H2 & H3)|[(H1 & H3)|(H1 & H2 & H3)]]; rewrite H3; repeat split; intros; try discriminate; try tauto; eauto.
  - destruct H as [m' H]. discriminate.
  - destruct H as [m' H]. discriminate.
  - destruct H as [m' H]. discriminate.
Qed.
Print Assumptions C59_outcome.

(** The links of the result lead to its targets, one link for each target, as before. *)
Theorem C59_consistent o m m' : optsWf o -> mapWf m -> restoreManifestMap o m = Ok m' -> mapWf m'.
Proof.
  intros Ho Hw E. apply (mapped_wf o m); auto; [|now apply C59_result].
  destruct (proj1 (proj1 (C59_outcome o m Ho Hw))); [now exists m'|assumption].
Qed.
Print Assumptions C59_consistent.

(** The data directory of the result is pg-path. *)
Theorem C59_base o m m' : optsWf o -> mapWf m -> restoreManifestMap o m = Ok m' ->
  exists b, manifestTargetFind (cmTargets m') pgData = Ok b /\ mtPath b = roPg o /\ mtFile b = None.
Proof.
  intros Ho Hw E. pose proof (C59_result o m m' Ho Hw E) as (_ & _ & xs & _ & (outs & new & Ha & Hnew & ET) & _).
  pose proof (C59_consistent o m m' Ho Hw E) as Hw'. destruct (wfBase _ Hw) as (b & Hb & En & Ef).
  destruct (in_somes _ _ _ _ Ha Hb) as [(b' & HA & Hi)|HA].
  - exists b'. destruct (after_keeps o b b' HA) as (E1 & _ & _ & _ & E5). split.
    + unfold manifestTargetFind. pose proof (find_key_in mtName b' (cmTargets m') (wfNames _ Hw')) as F. rewrite E1, En in F. rewrite F; [reflexivity|].
      rewrite ET, in_app_iff. tauto.
    + split; [|tauto]. inversion HA; subst; cbn; try reflexivity; try tauto; exfalso; apply (pg_under x); congruence.
  - exfalso. inversion HA; subst. apply (pg_under x). congruence.
Qed.
Print Assumptions C59_base.

(** Without link-all the links left are those of tablespaces and of the link map; with link-all none is lost. *)
Theorem C59_links_left o m m' : optsWf o -> mapWf m -> restoreManifestMap o m = Ok m' ->
  (forall n, In n (map mtName (cmTargets m')) <->
     (In n (map mtName (cmTargets m)) /\
        (n = pgData \/ (exists t, In t (cmTargets m) /\ mtName t = n /\ isTablespace t) \/ roLinkAll o = true \/ exists x p, n = under pgData x /\ In (x, p) (roLink o))) \/
     (exists x p, n = under pgData x /\ In (x, p) (roLink o))).
Proof.
  intros Ho Hw E n. pose proof (C59_result o m m' Ho Hw E) as (_ & _ & xs & (_ & Hx) & (outs & new & Ha & Hnew & ET) & _).
  rewrite ET, map_app, in_app_iff. split.
  - intros [H|H]; apply in_map_iff in H; destruct H as (t' & <- & H).
    + left. destruct (somes_in _ _ _ _ Ha H) as (t & Ht & HA). destruct (after_keeps o t t' HA) as (E1 & _). rewrite E1. split; [now apply in_map|].
      inversion HA; subst; eauto 10.
    + right. destruct (F2_right _ _ _ _ Hnew H) as (x & Hi & En & _ & _ & _ & p & Hp & _). eauto.
  - assert (Hold : forall t, In t (cmTargets m) -> (mtName t = pgData \/ isTablespace t \/ roLinkAll o = true \/ exists x p, mtName t = under pgData x /\ In (x, p) (roLink o)) ->
      In (mtName t) (map mtName (somes outs))).
    { intros t Ht Hc. destruct (in_somes _ _ _ _ Ha Ht) as [(t' & HA & Hi)|HA].
      - destruct (after_keeps o t t' HA) as (E1 & _). rewrite <- E1. now apply in_map.
      - exfalso. inversion HA as [| | | | | |x T Ex Hp Hall Eq]. destruct Hc as [Hc|[Hc|[Hc|(y & p & Ey & Hc)]]]; [|tauto|congruence|].
        + apply (pg_under x). congruence.
        + rewrite Ex in Ey. apply (slashed_inj pgData) in Ey. subst y. exact (Hp _ Hc). }
    intros [(H & Hc)|(x & p & -> & Hp)].
    + left. apply in_map_iff in H. destruct H as (t & <- & Ht). apply Hold; [exact Ht|].
      destruct Hc as [Hc|[(u & Hu & En & T)|Hc]]; [tauto| |tauto]. rewrite <- (key_inj mtName u t _ (wfNames _ Hw) Hu Ht En). tauto.
    + destruct (in_dec str_dec (under pgData x) (map mtName (cmTargets m))) as [H|H].
      * left. apply in_map_iff in H. destruct H as (t & Et & Ht). rewrite <- Et. apply Hold; [exact Ht|]. right. right. right. eauto.
      * right. assert (Hi : In x xs).
        { apply Hx. split; [eauto|]. intros (t & Ht & Et). apply H. rewrite <- Et. now apply in_map. }
        destruct (F2_left _ _ _ _ Hnew Hi) as (t' & Ht' & En & _). rewrite <- En. now apply in_map.
Qed.
Print Assumptions C59_links_left.

(** A manifest with a tablespace, a directory link and a file link; one directory is made a link. *)
Definition exO : ropts := mkRopts [47;110] [([97], [47;116;50])] None [([119], [47;119;50]); ([108], [47;108])] false.
Definition exM : cman :=
  mkCman [mkMtarget pgData true [47;111] None 0 None;
          mkMtarget (under pgTblspc [49]) false [47;116] None 1 (Some [97]);
          mkMtarget (under pgData [119]) false [47;119] None 0 None;
          mkMtarget (under pgData [102]) false [47;101] (Some [102]) 0 None]
         [mkMpath pgData 448 (Some [117]) (Some [103]); mkMpath (under pgData [119]) 448 None None; mkMpath (under pgData [108]) 448 None None; mkMpath pgTblspc 448 None None]
         [mkMlink (under pgData (under pgTblspc [49])) [47;116] None None; mkMlink (under pgData [119]) [47;119] None None; mkMlink (under pgData [102]) [47;101;47;102] None None]
         [mkMpath (under pgData [102]) 384 None None].
Lemma exM_wf : mapWf exM.
Proof.
  assert (A : forall (P : mtarget -> Prop), P (nth 0 (cmTargets exM) (mkMtarget [] false [] None 0 None)) -> P (nth 1 (cmTargets exM) (mkMtarget [] false [] None 0 None)) ->
    P (nth 2 (cmTargets exM) (mkMtarget [] false [] None 0 None)) -> P (nth 3 (cmTargets exM) (mkMtarget [] false [] None 0 None)) -> forall t, In t (cmTargets exM) -> P t).
  { intros P H0 H1 H2 H3 t [<-|[<-|[<-|[<-|[]]]]]; assumption. }
  constructor.
  - cbn. repeat constructor; cbn; intuition discriminate.
  - cbn. repeat constructor; cbn; intuition discriminate.
  - cbn. repeat constructor; cbn; intuition discriminate.
  - eexists. split; [left; reflexivity|]. split; reflexivity.
  - eexists. split; [left; reflexivity|]. reflexivity.
  - apply (A (fun t => mtName t = pgData -> mtIsPath t = true /\ ~ isTablespace t)); cbn; try discriminate. intros _. split; [reflexivity|]. unfold isTablespace. cbn. lia.
  - apply (A (fun t => mtName t <> pgData -> mtIsPath t = false)); cbn; auto. intros H. now destruct H.
  - apply (A (fun t => isTablespace t -> (exists n, mtName t = under pgTblspc n) /\ mtFile t = None /\ (exists n, mtTablespaceName t = Some n) /\
      ~ named (cmPaths exM) (under pgData (mtName t)) /\ ~ named (cmFiles exM) (under pgData (mtName t)))); unfold isTablespace; cbn; try (intros H; now destruct H).
    intros _. split; [now exists [49]|]. split; [reflexivity|]. split; [now exists [97]|]. split; intros (p & H & E); cbn in H; repeat (destruct H as [<-|H]; [discriminate|]); tauto.
  - apply (A (fun t => mtName t <> pgData -> ~ isTablespace t -> exists x, mtName t = under pgData x)); unfold isTablespace; cbn [nth exM cmTargets mtName mtTablespaceId]; intros H1 H2.
    + now destruct H1.
    + exfalso. lia.
    + now exists [119].
    + now exists [102].
  - apply (A (fun t => mtName t <> pgData -> exists k, In k (cmLinks exM) /\ linkOf t (mlName k) /\ leads t (mlDestination k)));
      unfold isTablespace; cbn [nth exM cmTargets mtName mtTablespaceId]; intros H1.
    + now destruct H1.
    + eexists. split; [left; reflexivity|]. split; [left; split; [discriminate|reflexivity]|reflexivity].
    + eexists. split; [right; left; reflexivity|]. split; [right; split; [unfold isTablespace; cbn; lia|reflexivity]|reflexivity].
    + eexists. split; [right; right; left; reflexivity|]. split; [right; split; [unfold isTablespace; cbn; lia|reflexivity]|]. unfold leads, fileIn, noSlashIn. cbn.
      split; [intuition discriminate|]. split; [discriminate|]. left. reflexivity.
  - intros k [<-|[<-|[<-|[]]]]; eexists.
    + split; [right; left; reflexivity|]. split; [discriminate|]. left. split; [discriminate|reflexivity].
    + split; [right; right; left; reflexivity|]. split; [discriminate|]. right. split; [unfold isTablespace; cbn; lia|reflexivity].
    + split; [right; right; right; left; reflexivity|]. split; [discriminate|]. right. split; [unfold isTablespace; cbn; lia|reflexivity].
  - intros t u n Ht Hu. revert n. revert u Hu.
    apply (A (fun t => forall u, In u (cmTargets exM) -> forall n, mtName t <> pgData -> mtName u <> pgData -> linkOf t n -> linkOf u n -> t = u)); [..|exact Ht];
    apply (A (fun u => forall n, _ -> mtName u <> pgData -> _ -> linkOf u n -> _ = u)); intros n B1 B2 [[T1 ->]|[T1 ->]] [[T2 E]|[T2 E]];
      try reflexivity; try discriminate E; try (now destruct B1); try (now destruct B2).
  - intros n (p & Hp & <-) (q & Hq & E). cbn in Hp, Hq. destruct Hq as [<-|[]]. repeat (destruct Hp as [<-|Hp]; [discriminate|]). tauto.
Qed.
Example C59_nontrivial : optsWf exO /\ mapWf exM /\ exists m', restoreManifestMap exO exM = Ok m' /\
  map (fun t => (mtName t, mtPath t)) (cmTargets m') =
    [(pgData, [47;110]); (under pgTblspc [49], [47;116;50]); (under pgData [119], [47;119;50]); (under pgData [108], [47;108])] /\
  map (fun k => (mlName k, mlDestination k, mlUser k)) (cmLinks m') =
    [(under pgData (under pgTblspc [49]), [47;116;50], None); (under pgData [119], [47;119;50], None); (under pgData [108], [47;108], Some [117])].
Proof.
  split; [split; cbn; repeat constructor; cbn; intuition discriminate|]. split; [apply exM_wf|]. eexists. split; [vm_compute; reflexivity|]. split; reflexivity.
Qed.

(** False: an entry of the tablespace map moves at most one tablespace.  The name of a tablespace may be the id of another one. *)
Theorem C59_one_tablespace_refuted : ~ (forall o m m' t u k p, optsWf o -> mapWf m -> restoreManifestMap o m = Ok m' -> In (k, p) (roTablespace o) ->
  In t (cmTargets m') -> In u (cmTargets m') -> isTablespace t -> isTablespace u -> mtPath t = p -> mtPath u = p ->
  (forall k' p', In (k', p') (roTablespace o) -> k' = k) -> (forall v, In v (cmTargets m) -> mtPath v <> p) -> t = u).
Proof.
  intros H.
  set (m := mkCman [mkMtarget pgData true [47;111] None 0 None; mkMtarget (under pgTblspc [49]) false [47;116] None 1 (Some [97]);
                    mkMtarget (under pgTblspc [50]) false [47;117] None 2 (Some [49])]
         [mkMpath pgData 448 None None]
         [mkMlink (under pgData (under pgTblspc [49])) [47;116] None None; mkMlink (under pgData (under pgTblspc [50])) [47;117] None None] []).
  assert (A : forall (P : mtarget -> Prop), P (nth 0 (cmTargets m) (mkMtarget [] false [] None 0 None)) -> P (nth 1 (cmTargets m) (mkMtarget [] false [] None 0 None)) ->
    P (nth 2 (cmTargets m) (mkMtarget [] false [] None 0 None)) -> forall t, In t (cmTargets m) -> P t).
  { intros P H0 H1 H2 t [<-|[<-|[<-|[]]]]; assumption. }
  specialize (H (mkRopts [47;111] [([49], [47;120])] None [] false) m
    (mkCman [mkMtarget pgData true [47;111] None 0 None; mkMtarget (under pgTblspc [49]) false [47;120] None 1 (Some [97]);
             mkMtarget (under pgTblspc [50]) false [47;120] None 2 (Some [49])]
         [mkMpath pgData 448 None None]
         [mkMlink (under pgData (under pgTblspc [49])) [47;120] None None; mkMlink (under pgData (under pgTblspc [50])) [47;120] None None] [])
    (mkMtarget (under pgTblspc [49]) false [47;120] None 1 (Some [97])) (mkMtarget (under pgTblspc [50]) false [47;120] None 2 (Some [49])) [49] [47;120]).
  discriminate H.
  - split; cbn; repeat constructor; cbn; intuition discriminate.
  - constructor.
    + cbn. repeat constructor; cbn; intuition discriminate.
    + cbn. repeat constructor; cbn; intuition discriminate.
    + cbn. repeat constructor; cbn; intuition discriminate.
    + eexists. split; [left; reflexivity|]. split; reflexivity.
    + eexists. split; [left; reflexivity|]. reflexivity.
    + apply (A (fun t => mtName t = pgData -> mtIsPath t = true /\ ~ isTablespace t)); cbn; try discriminate. intros _. split; [reflexivity|]. unfold isTablespace. cbn. lia.
    + apply (A (fun t => mtName t <> pgData -> mtIsPath t = false)); cbn; auto. intros B. now destruct B.
    + apply (A (fun t => isTablespace t -> (exists n, mtName t = under pgTblspc n) /\ mtFile t = None /\ (exists n, mtTablespaceName t = Some n) /\
        ~ named (cmPaths m) (under pgData (mtName t)) /\ ~ named (cmFiles m) (under pgData (mtName t)))); unfold isTablespace; cbn; try (intros B; now destruct B);
      intros _; (split; [eexists; reflexivity|]); (split; [reflexivity|]); (split; [eexists; reflexivity|]); split; intros (p & B & E); cbn in B;
        repeat (destruct B as [<-|B]; [discriminate|]); tauto.
    + apply (A (fun t => mtName t <> pgData -> ~ isTablespace t -> exists x, mtName t = under pgData x)); unfold isTablespace; cbn [nth m cmTargets mtName mtTablespaceId]; intros B1 B2;
        [now destruct B1|exfalso; lia|exfalso; lia].
    + apply (A (fun t => mtName t <> pgData -> exists k, In k (cmLinks m) /\ linkOf t (mlName k) /\ leads t (mlDestination k))); cbn [nth m cmTargets mtName mtTablespaceId]; intros B1.
      * now destruct B1.
      * eexists. split; [left; reflexivity|]. split; [left; split; [discriminate|reflexivity]|reflexivity].
      * eexists. split; [right; left; reflexivity|]. split; [left; split; [discriminate|reflexivity]|reflexivity].
    + intros k [<-|[<-|[]]]; eexists.
      * split; [right; left; reflexivity|]. split; [discriminate|]. left. split; [discriminate|reflexivity].
      * split; [right; right; left; reflexivity|]. split; [discriminate|]. left. split; [discriminate|reflexivity].
    + intros t u n Ht Hu. revert n. revert u Hu.
      apply (A (fun t => forall u, In u (cmTargets m) -> forall n, mtName t <> pgData -> mtName u <> pgData -> linkOf t n -> linkOf u n -> t = u)); [..|exact Ht];
      apply (A (fun u => forall n, _ -> mtName u <> pgData -> _ -> linkOf u n -> _ = u)); intros n B1 B2 [[T1 ->]|[T1 ->]] [[T2 E]|[T2 E]];
        try reflexivity; try discriminate E; try (now destruct B1); try (now destruct B2).
    + intros n _ (q & [] & _).
  - vm_compute. reflexivity.
  - left. reflexivity.
  - right. left. reflexivity.
  - right. right. left. reflexivity.
  - discriminate.
  - discriminate.
  - reflexivity.
  - reflexivity.
  - intros k' p' [E|[]]. now injection E as <- _.
  - apply A; discriminate.
Qed.
Print Assumptions C59_one_tablespace_refuted.

(** False: a file link that is mapped gets a name.  A destination that ends with / is accepted. *)
Theorem C59_file_name_refuted : ~ (forall o m m' t f, optsWf o -> mapWf m -> (forall u g, In u (cmTargets m) -> mtFile u = Some g -> g <> []) ->
  restoreManifestMap o m = Ok m' -> In t (cmTargets m') -> mtFile t = Some f -> f <> []).
Proof.
  intros H. specialize (H (mkRopts [47;110] [] None [([102], [47;97;47])] false) exM
    (mkCman [mkMtarget pgData true [47;110] None 0 None; mkMtarget (under pgTblspc [49]) false [47;116] None 1 (Some [97]); mkMtarget (under pgData [102]) false [47;97] (Some []) 0 None]
       (cmPaths exM)
       [mkMlink (under pgData (under pgTblspc [49])) [47;116] None None; mkMlink (under pgData [102]) [47;97;47] None None] (cmFiles exM))
    (mkMtarget (under pgData [102]) false [47;97] (Some []) 0 None) []).
  apply H; try reflexivity.
  - split; cbn; repeat constructor; cbn; intuition discriminate.
  - apply exM_wf.
  - intros u g Hu Eg ->. cbn in Hu. repeat (destruct Hu as [<-|Hu]; [discriminate|]). exact Hu.
  - right. right. left. reflexivity.
Qed.
Print Assumptions C59_file_name_refuted.

(** If the name of an entry of the link map that is no link is that of a path and of a file as well, which no backup has, it is an error. *)
Theorem C59_path_and_file o m x p : In (x, p) (roLink o) -> ~ isTarget m x -> named (cmPaths m) (under pgData x) -> named (cmFiles m) (under pgData x) -> mapLink o m x = Err EFormat.
Proof.
  intros Hx HT HP HF. unfold mapLink. destruct (kvGet (roLink o) x) as [q|] eqn:EK.
  2: { exfalso. unfold kvGet in EK. destruct (find (fun k => strEqb (fst k) x) (roLink o)) as [k|] eqn:EF; [discriminate|]. pose proof (find_none _ _ EF _ Hx) as F. cbn in F. rewrite strEqb_refl in F. discriminate. }
  cbv zeta. destruct (find (fun t => strEqb (mtName t) (slashed pgData x)) (cmTargets m)) as [t|] eqn:EF.
  { exfalso. apply HT. apply find_some in EF. destruct EF as [H1 H2]. exists t. split; [exact H1|]. apply strEqb_eq in H2. exact H2. }
  assert (N : forall l, named l (under pgData x) -> isSome (findPath l (slashed pgData x)) = true).
  { intros l (e & He & En). unfold findPath. destruct (find (fun q => strEqb (mpName q) (slashed pgData x)) l) eqn:E2; [reflexivity|]. pose proof (find_none _ _ E2 _ He) as F. cbn in F. rewrite En in F.
    change (slashed pgData x) with (under pgData x) in F. rewrite strEqb_refl in F. discriminate. }
  rewrite (N _ HP), (N _ HF). reflexivity.
Qed.
Print Assumptions C59_path_and_file.
