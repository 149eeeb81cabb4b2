From Verif Require Import Base Str ExpireModel ExpireSpec ExpireProof ExpireProof2.
From Coq Require Import Permutation Sorted.
Open Scope Z_scope.

(** * Reconstruction: dropping entries without manifest *)

Lemma manifestOf_dir s lab m : manifestOf s lab = Some m -> exists d, In d (stDirs s) /\ dLabel d = lab /\ dManifest d = Some m.
Proof.
  unfold manifestOf, findDir. destruct (find _ (stDirs s)) as [d|] eqn:E; [|discriminate]. intros Hm.
  apply find_some in E. destruct E as [H1 H2]. apply strEqb_eq in H2. eauto.
Qed.

Lemma manifestOf_good s lab m : goodStore s -> manifestOf s lab = Some m -> goodManifest lab m.
Proof.
  intros [_ Hg] Hm. destruct (manifestOf_dir s lab m Hm) as (d & Hd & <- & Hdm). now apply Hg.
Qed.

Lemma dirList_in s lab : In lab (dirList s) <-> labelAny lab = true /\ In lab (map dLabel (stDirs s)).
Proof. unfold dirList. rewrite strLstSortAsc_in, filter_In. tauto. Qed.

Lemma manifest_in_dirList s lab m : goodStore s -> manifestOf s lab = Some m -> In lab (dirList s).
Proof.
  intros Hg Hm. apply dirList_in. destruct (manifestOf_good s lab m Hg Hm) as (_ & Hl & _). split; [exact Hl|].
  destruct (manifestOf_dir s lab m Hm) as (d & Hd & <- & _). now apply in_map.
Qed.

(** The test the code makes is "the manifest is there". *)
Lemma manifestExists_test s lab : goodStore s ->
  strLstExists (dirList s) lab && isSome (manifestOf s lab) = isSome (manifestOf s lab).
Proof.
  intros Hg. destruct (manifestOf s lab) as [m|] eqn:E; cbn; [|apply andb_false_r].
  rewrite andb_true_r. apply strLstExists_in. eapply manifest_in_dirList; eauto.
Qed.

Lemma dropLoop_spec s l : goodStore s -> ordered l -> forall cur done lc,
  sublist lc l -> survives l lc (fun y => In y done /\ In y (map bkLabel l) /\ manifestOf s y = None) ->
  sublist (dropLoop s cur lc) l /\
  survives l (dropLoop s cur lc) (fun y => (In y done \/ In y cur) /\ In y (map bkLabel l) /\ manifestOf s y = None).
Proof.
  intros Hg Ho. induction cur as [|lab r IH]; intros done lc Hsub Hsv; cbn [dropLoop].
  - split; [exact Hsub|]. eapply survives_ext; [|exact Hsv]. intros x. cbn. tauto.
  - rewrite manifestExists_test by assumption.
    assert (Hfin : forall lc', sublist lc' l ->
      survives l lc' (fun y => In y (lab :: done) /\ In y (map bkLabel l) /\ manifestOf s y = None) ->
      sublist (dropLoop s r lc') l /\
      survives l (dropLoop s r lc') (fun y => (In y done \/ In y (lab :: r)) /\ In y (map bkLabel l) /\ manifestOf s y = None)).
    { intros lc' H1 H2. destruct (IH (lab :: done) lc' H1 H2) as [H3 H4]. split; [exact H3|].
      eapply survives_ext; [|exact H4]. intros x. cbn. tauto. }
    destruct (manifestOf s lab) as [m|] eqn:Em; cbn [isSome negb andb].
    + apply Hfin; [exact Hsub|]. eapply survives_ext; [|exact Hsv]. intros x. cbn. split; [tauto|].
      intros [[<-|H1] [H2 H3]]; [congruence|tauto].
    + destruct (labelExists_spec lc lab) as [Hin|Hin].
      * apply in_map_iff in Hin. destruct Hin as (b & <- & Hb).
        assert (Hbl : In b l) by (eapply sublist_in; eauto).
        destruct (fold_delete_dependents lc (bkLabel b) (strLstSortDesc (dependentList lc (bkLabel b)))) as (f & Ef & Hf).
        { eapply sublist_ordered; eauto. } { intros x. apply strLstSortDesc_in. }
        apply Hfin.
        -- eapply sublist_trans; [|exact Hsub]. exists f. exact Ef.
        -- eapply survives_ext; [|eapply survives_trans; [exact Hsv|]].
           2:{ instantiate (1 := fun y => y = bkLabel b). rewrite Ef. intros c. rewrite filter_In. split.
               - intros [Hc Hfc]. split; [exact Hc|]. intros (y & -> & Hd). apply Hf in Hfc; auto.
               - intros [Hc Hn]. split; [exact Hc|]. apply Hf; [exact Hc|]. intros Hd. apply Hn. eauto. }
           intros x. cbn. split.
           ++ intros [H1| ->]; [tauto|]. split; [now left|]. split; [now apply in_map|exact Em].
           ++ intros [[<-|H1] [H2 H3]]; tauto.
      * apply Hfin; [exact Hsub|]. intros c. rewrite (Hsv c). split.
        -- intros [Hc Hn]. split; [exact Hc|]. intros (y & ([<-|H1] & H2 & H3) & Hd); [|apply Hn; eauto].
           (* the label was dropped before *)
           apply in_map_iff in H2. destruct H2 as (b & Eb & Hb). rewrite <- Eb in *.
           assert (Hnb : ~ In b lc) by (intros Hb'; apply Hin; now apply in_map).
           apply Hnb, Hsv. split; [exact Hb|]. intros (y & Hy & Hdy). apply Hn. exists y. split; [exact Hy|].
           eapply dependsOn_trans; eauto.
        -- intros [Hc Hn]. split; [exact Hc|]. intros (y & (H1 & H2) & Hd). apply Hn. exists y. split; [|exact Hd].
           split; [now right|exact H2].
Qed.

Lemma drop_spec s l : goodStore s -> ordered l ->
  sublist (dropLoop s (strLstSortAsc (labels l)) l) l /\
  survives l (dropLoop s (strLstSortAsc (labels l)) l) (fun y => In y (map bkLabel l) /\ manifestOf s y = None).
Proof.
  intros Hg Ho. destruct (dropLoop_spec s l Hg Ho (strLstSortAsc (labels l)) [] l) as [H1 H2].
  - apply sublist_refl.
  - eapply survives_ext; [|apply survives_refl]. cbn. tauto.
  - split; [exact H1|]. eapply survives_ext; [|exact H2]. intros x. cbn beta. rewrite strLstSortAsc_in. unfold labels. cbn. tauto.
Qed.

(** * Induction along the order of labels *)
Lemma ordered_induction l (P : backup -> Prop) : ordered l ->
  (forall b, In b l -> (forall c, In c l -> slt (bkLabel c) (bkLabel b) -> P c) -> P b) -> forall b, In b l -> P b.
Proof.
  intros [Hs _] Hstep. assert (forall pre suf, l = pre ++ suf -> forall b, In b pre -> P b) as H.
  { induction pre as [|x pre IH] using rev_ind; intros suf El b Hb; [destruct Hb|].
    rewrite <- app_assoc in El. cbn in El. apply in_app_or in Hb. destruct Hb as [Hb|[<-|[]]]; [eauto|].
    apply Hstep; [rewrite El; apply in_or_app; right; now left|]. intros c Hc Hlt.
    rewrite El in Hc. apply in_app_or in Hc. destruct Hc as [Hc|[<-|Hc]]; [eauto|exfalso; eapply slt_irrefl; eauto|].
    exfalso. rewrite El, map_app in Hs. apply StronglySorted_app_inv in Hs. destruct Hs as (_ & Hs & _).
    cbn in Hs. inversion Hs as [|? ? _ Hf]. rewrite Forall_forall in Hf. eapply slt_asym; [exact Hlt|]. apply Hf. now apply in_map. }
  intros b Hb. apply (H l [] (eq_sym (app_nil_r l)) b Hb).
Qed.

(** * Reconstruction: adding complete backups *)

Lemma dataFromManifest_label m : bkLabel (dataFromManifest m) = bkLabel (mfData m).
Proof. reflexivity. Qed.
Lemma dataFromManifest_prior lab m : goodManifest lab m -> bkPrior (dataFromManifest m) = mfPrior m.
Proof.
  intros (_ & _ & H). unfold dataFromManifest. cbn. destruct (mfPrior m) as [p|]; [destruct H as (-> & _)|destruct H as (-> & _)]; reflexivity.
Qed.

Lemma dataAdd_in l m b : In b (dataAdd l m) <-> In b l \/ b = dataFromManifest m.
Proof. unfold dataAdd. rewrite sortBy_in, in_app_iff. cbn. intuition congruence. Qed.

Lemma dataAdd_ordered l m lab : goodManifest lab m -> ordered l -> ~ In lab (map bkLabel l) ->
  ordered (dataAdd l m).
Proof.
  intros Hm [Hs Hp] Hn. pose proof Hm as (El & _ & Hpr). split.
  - assert (Hnd : NoDup (map bkLabel (dataAdd l m))).
    { unfold dataAdd. eapply Permutation_NoDup; [apply Permutation_map, Permutation_sym, sortBy_perm|].
      rewrite map_app. cbn [map]. rewrite dataFromManifest_label, El.
      apply (Permutation_NoDup (l := lab :: map bkLabel l)); [apply Permutation_cons_append|].
      constructor; [exact Hn|]. now apply ssorted_NoDup. }
    pose proof (sortBy_sorted bkLabel strLeb strLeb_total strLeb_trans (l ++ [dataFromManifest m])) as H.
    fold (dataAdd l m) in H. clear - Hnd H. induction H as [|x r Hr IH Hx]; cbn in *; [constructor|].
    inversion Hnd as [|? ? Hni Hnd']; subst. constructor; [now apply IH|].
    apply Forall_forall. intros y Hy. apply in_map_iff in Hy. destruct Hy as (c & <- & Hc). rewrite Forall_forall in Hx.
    specialize (Hx c Hc). unfold keyLe in Hx. apply strLeb_le, sle_lt_eq in Hx. destruct Hx as [Hx|Hx]; [exact Hx|].
    exfalso. apply Hni. rewrite Hx. now apply in_map.
  - intros b p Hb Hbp. apply dataAdd_in in Hb. destruct Hb as [Hb| ->]; [now apply Hp|].
    rewrite (dataFromManifest_prior lab m Hm) in Hbp. rewrite Hbp in Hpr. rewrite dataFromManifest_label, El. tauto.
Qed.

Lemma canAdd_spec hist m l : canAdd hist m l = true <->
  knownCluster hist m /\ match mfPrior m with None => True | Some p => In p (map bkLabel l) end.
Proof.
  unfold canAdd, knownCluster. rewrite existsb_exists. split.
  - intros (h & Hh & H). rewrite !andb_true_iff in H. destruct H as (((H1 & H2) & H3) & H4). split.
    + exists h. repeat split; auto; lia.
    + destruct (mfPrior m); [now apply labelExists_in|exact I].
  - intros [(h & Hh & H1 & H2 & H3) H4]. exists h. split; [exact Hh|]. rewrite H1, H2, H3, !Z.eqb_refl. cbn.
    destruct (mfPrior m); [now apply labelExists_in|reflexivity].
Qed.

Lemma labelAny_len x : labelAny x = true -> length x = 16%nat \/ length x = 33%nat.
Proof.
  unfold labelAny. rewrite !orb_true_iff. intros [[H|H]|H]; [left; now apply labelFull_len|right|right]; eapply labelDep_len; exact H.
Qed.

Lemma usable_manifest s hist l x : usable s hist l x -> exists m, manifestOf s x = Some m.
Proof. intros [lab m H _ _|lab m p H _ _ _]; eauto. Qed.

Lemma usable_inv s hist l x m : usable s hist l x -> manifestOf s x = Some m ->
  (In x (map bkLabel l) \/ knownCluster hist m) /\ match mfPrior m with None => True | Some p => usable s hist l p end.
Proof.
  intros [lab m' H1 H2 H3|lab m' p H1 H2 H3 H4] Hm; rewrite H1 in Hm; injection Hm as <-; rewrite H3; auto.
Qed.

Lemma usable_intro s hist l x m : manifestOf s x = Some m ->
  (In x (map bkLabel l) \/ knownCluster hist m) -> match mfPrior m with None => True | Some p => usable s hist l p end ->
  usable s hist l x.
Proof.
  intros Hm H1 H2. destruct (mfPrior m) as [p|] eqn:E; [eapply usable_dep; eauto|eapply usable_full; eauto].
Qed.

Section Reconstruct.
  Variables (s : store) (hist : list pgHist) (l : list backup).
  Hypothesis Hg : goodStore s.
  Hypothesis Ho : ordered l.
  Hypothesis Hc : ancestorsListed l.
  Hypothesis Hag : agrees s l.
  Let l1 := dropLoop s (strLstSortAsc (labels l)) l.

  Lemma l1_sub : sublist l1 l. Proof. apply (drop_spec s l Hg Ho). Qed.
  Lemma l1_sv : survives l l1 (fun y => In y (map bkLabel l) /\ manifestOf s y = None). Proof. apply (drop_spec s l Hg Ho). Qed.
  Lemma l1_ord : ordered l1. Proof. eapply sublist_ordered; [apply l1_sub|exact Ho]. Qed.
  Lemma l1_closed : ancestorsListed l1. Proof. eapply survives_closed; [apply l1_sv|exact Hc]. Qed.

  Lemma l1_usable b : In b l1 -> usable s hist l (bkLabel b).
  Proof.
    revert b. apply (ordered_induction l1 (fun b => usable s hist l (bkLabel b)) l1_ord). intros b Hb IH.
    pose proof (proj1 (l1_sv b) Hb) as [Hbl Hn].
    destruct (manifestOf s (bkLabel b)) as [m|] eqn:Em.
    2:{ exfalso. apply Hn. exists (bkLabel b). split; [|constructor]. split; [now apply in_map|exact Em]. }
    eapply usable_intro; [exact Em|left; now apply in_map|].
    pose proof (Hag b m Hbl Em) as Ep. destruct (mfPrior m) as [p|]; [|exact I].
    destruct (l1_closed b p Hb Ep) as (c & Hcl & Ec). rewrite <- Ec. apply IH; [exact Hcl|]. rewrite Ec.
    destruct Ho as [_ Hlt]. now apply Hlt.
  Qed.

  Lemma usable_l1 x : usable s hist l x -> forall b, In b l -> bkLabel b = x -> In b l1.
  Proof.
    intros Hu. assert (H : In x (map bkLabel l) -> forall y, In y (map bkLabel l) /\ manifestOf s y = None -> ~ dependsOn l x y).
    { induction Hu as [lab m Hm Hor Hp|lab m p Hm Hor Hp Hu IH]; intros Hin y [Hy Hyn] Hd;
        apply in_map_iff in Hin; destruct Hin as (b & Eb & Hb); rewrite <- Eb in *.
      - pose proof (Hag b m Hb Hm) as Ep. rewrite Hp in Ep.
        destruct (dependsOn_inv l b y Ho Hb Hd) as [E|(q & Eq & _)]; [|congruence]. rewrite E in Hm. congruence.
      - pose proof (Hag b m Hb Hm) as Ep. rewrite Hp in Ep.
        destruct (dependsOn_inv l b y Ho Hb Hd) as [E|(q & Eq & Hd')]; [rewrite E in Hm; congruence|].
        assert (q = p) by congruence. subst q. destruct (Hc b p Hb Ep) as (c & Hcl & Ec).
        apply (IH ltac:(rewrite <- Ec; now apply in_map) y (conj Hy Hyn) Hd'). }
    intros b Hb Eb. apply l1_sv. split; [exact Hb|]. intros (y & Hy & Hd). rewrite Eb in Hd. eapply H; eauto.
    rewrite <- Eb. now apply in_map.
  Qed.

  Definition entryOk (b : backup) : Prop :=
    In b l \/ (~ In (bkLabel b) (map bkLabel l) /\ exists m, manifestOf s (bkLabel b) = Some m /\ b = dataFromManifest m).

  Lemma dirList_sorted : ssorted (dirList s).
  Proof.
    unfold dirList. pose proof (strLstSortAsc_sorted (filter labelAny (map dLabel (stDirs s)))) as H.
    assert (Hn : NoDup (strLstSortAsc (filter labelAny (map dLabel (stDirs s))))).
    { eapply Permutation_NoDup; [apply Permutation_sym, strLstSortAsc_perm|]. apply NoDup_filter, Hg. }
    induction H as [|x r Hr IH Hx]; [constructor|]. inversion Hn as [|? ? Hni Hn']; subst. constructor; [now apply IH|].
    apply Forall_forall. intros y Hy. rewrite Forall_forall in Hx. specialize (Hx y Hy). apply sle_lt_eq in Hx.
    destruct Hx as [Hx|Hx]; [exact Hx|subst; contradiction].
  Qed.

  Lemma addLoop_spec cur : (forall x, In x cur <-> In x (map bkLabel l1)) -> forall dirs pre lc,
    dirList s = pre ++ dirs -> ordered lc -> ancestorsListed lc -> (forall b, In b lc -> entryOk b) ->
    (forall b, In b l1 -> In b lc) ->
    (forall x, In x (map bkLabel lc) <-> In x (map bkLabel l1) \/ (In x pre /\ usable s hist l x)) ->
    let r := addLoop s hist cur dirs lc in
    ordered r /\ ancestorsListed r /\ (forall b, In b r -> entryOk b) /\ (forall b, In b l1 -> In b r) /\
    (forall x, In x (map bkLabel r) <-> usable s hist l x).
  Proof.
    intros Hcur. induction dirs as [|lab dirs IH]; intros pre lc Ed Hlo Hlc Hle Hl1 Hlab; cbn [addLoop].
    - cbn zeta. split; [exact Hlo|]. split; [exact Hlc|]. split; [exact Hle|]. split; [exact Hl1|]. intros x. rewrite Hlab. split.
      + intros [H|[_ H]]; [|exact H]. apply in_map_iff in H. destruct H as (b & <- & Hb). now apply l1_usable.
      + intros Hu. right. split; [|exact Hu]. destruct (usable_manifest _ _ _ _ Hu) as (m & Hm).
        rewrite app_nil_r in Ed. rewrite <- Ed. eapply manifest_in_dirList; eauto.
    - assert (Hpass : ~ In lab (map bkLabel l1) -> ~ usable s hist l lab ->
        let r := addLoop s hist cur dirs lc in
        ordered r /\ ancestorsListed r /\ (forall b, In b r -> entryOk b) /\ (forall b, In b l1 -> In b r) /\
        (forall x, In x (map bkLabel r) <-> usable s hist l x)).
      { intros Hn Hnu. apply (IH (pre ++ [lab])); auto. { rewrite <- app_assoc. exact Ed. }
        intros x. rewrite Hlab, in_app_iff. cbn. split; [tauto|]. intros [H|[[H|[<-|[]]] H2]]; tauto. }
      (* a backup that usable lab depends on has been processed *)
      assert (Hprior : forall m p, manifestOf s lab = Some m -> mfPrior m = Some p -> usable s hist l p -> In p (map bkLabel lc)).
      { intros m p Hm Hp Hup. apply Hlab. right. split; [|exact Hup]. destruct (usable_manifest _ _ _ _ Hup) as (mp & Hmp).
        pose proof (manifest_in_dirList s p mp Hg Hmp) as Hin. pose proof (manifestOf_good s lab m Hg Hm) as (_ & _ & Hgm).
        rewrite Hp in Hgm. destruct Hgm as (_ & _ & Hlt & _). pose proof dirList_sorted as Hs. unfold ssorted in Hs.
        rewrite Ed in Hin, Hs. apply in_app_or in Hin. destruct Hin as [Hin|[<-|Hin]]; [exact Hin|exfalso; eapply slt_irrefl; eauto|].
        exfalso. apply StronglySorted_app_inv in Hs. destruct Hs as (_ & Hs & _). inversion Hs as [|? ? _ Hf].
        rewrite Forall_forall in Hf. eapply slt_asym; [exact Hlt|]. now apply Hf. }
      assert (Hlabin : labelAny lab = true).
      { apply (dirList_in s lab). rewrite Ed. apply in_or_app. right. now left. }
      destruct (strLstExists_spec cur lab) as [Hin|Hin]; cbn [negb andb].
      { apply Hcur in Hin. apply (IH (pre ++ [lab])); auto. { rewrite <- app_assoc. exact Ed. }
        intros x. rewrite Hlab, in_app_iff. cbn. split; [tauto|]. intros [H|[[H|[<-|[]]] H2]]; tauto. }
      rewrite Hcur in Hin.
      destruct (Nat.eqb (length lab) 16 || setExists lc (firstn 16 lab)) eqn:Econd.
      + destruct (manifestOf s lab) as [m|] eqn:Em.
        2:{ apply Hpass; [exact Hin|]. intros Hu. destruct (usable_manifest _ _ _ _ Hu) as (m & Hm). congruence. }
        destruct (canAdd hist m lc) eqn:Ecan.
        * apply canAdd_spec in Ecan. destruct Ecan as [Hk Hp].
          pose proof (manifestOf_good s lab m Hg Em) as Hgm. pose proof Hgm as (Elab & _ & _).
          assert (Hu : usable s hist l lab).
          { eapply usable_intro; [exact Em|now right|]. destruct (mfPrior m) as [p|]; [|exact I].
            apply Hlab in Hp. destruct Hp as [Hp|[_ Hp]]; [|exact Hp]. apply in_map_iff in Hp. destruct Hp as (b & <- & Hb). now apply l1_usable. }
          assert (Hnl : ~ In lab (map bkLabel l)).
          { intros Hl. apply in_map_iff in Hl. destruct Hl as (b & Eb & Hb). apply Hin. rewrite <- Eb. apply in_map. eapply usable_l1; eauto. }
          assert (Hnlc : ~ In lab (map bkLabel lc)).
          { rewrite Hlab. intros [H|[H _]]; [contradiction|].
            pose proof dirList_sorted as Hs. apply ssorted_NoDup in Hs. rewrite Ed in Hs.
            eapply (NoDup_app_disjoint pre (lab :: dirs) lab); eauto. now left. }
          apply (IH (pre ++ [lab])).
          -- rewrite <- app_assoc. exact Ed.
          -- eapply dataAdd_ordered; eauto.
          -- intros b p Hb Hbp. apply dataAdd_in in Hb. destruct Hb as [Hb| ->].
             ++ destruct (Hlc b p Hb Hbp) as (c & Hcl & Ec). exists c. split; [apply dataAdd_in; now left|exact Ec].
             ++ rewrite (dataFromManifest_prior lab m Hgm) in Hbp. rewrite Hbp in Hp. apply in_map_iff in Hp.
                destruct Hp as (c & Ec & Hcl). exists c. split; [apply dataAdd_in; now left|exact Ec].
          -- intros b Hb. apply dataAdd_in in Hb. destruct Hb as [Hb| ->]; [now apply Hle|].
             right. rewrite dataFromManifest_label, Elab. split; [exact Hnl|]. eauto.
          -- intros b Hb. apply dataAdd_in. left. auto.
          -- intros x. rewrite in_app_iff. cbn [In]. split.
             ++ intros Hx. apply in_map_iff in Hx. destruct Hx as (b & <- & Hb). apply dataAdd_in in Hb. destruct Hb as [Hb| ->].
                ** assert (In (bkLabel b) (map bkLabel lc)) as H by now apply in_map. apply Hlab in H. tauto.
                ** rewrite dataFromManifest_label, Elab. right. auto.
             ++ intros Hx. assert (In x (map bkLabel lc) \/ x = lab) as [H| ->].
                { rewrite Hlab. destruct Hx as [H|[[H|[<-|[]]] H2]]; tauto. }
                ** apply in_map_iff in H. destruct H as (b & <- & Hb). apply in_map, dataAdd_in. now left.
                ** apply in_map_iff. exists (dataFromManifest m). split; [exact Elab|]. apply dataAdd_in. now right.
        * apply Hpass; [exact Hin|]. intros Hu. pose proof (usable_inv _ _ _ _ _ Hu Em) as [Hor Hp].
          assert (Hnl : ~ In lab (map bkLabel l)).
          { intros Hl. apply in_map_iff in Hl. destruct Hl as (b & Eb & Hb). apply Hin. rewrite <- Eb. apply in_map. eapply usable_l1; eauto. }
          destruct Hor as [Hor|Hor]; [contradiction|].
          assert (canAdd hist m lc = true) as C; [|congruence]. apply canAdd_spec. split; [exact Hor|].
          destruct (mfPrior m) as [p|] eqn:Ep; [|exact I]. eapply Hprior; eauto.
      + apply Hpass; [exact Hin|]. intros Hu. destruct (usable_manifest _ _ _ _ Hu) as (m & Em).
        pose proof (usable_inv _ _ _ _ _ Hu Em) as [_ Hp]. pose proof (manifestOf_good s lab m Hg Em) as (_ & _ & Hgm).
        apply orb_false_iff in Econd. destruct Econd as [Ec1 Ec2]. apply Nat.eqb_neq in Ec1.
        destruct (mfPrior m) as [p|] eqn:Ep.
        * pose proof (Hprior m p Em Ep Hp) as Hpin. destruct Hgm as (_ & _ & _ & Hpre).
          assert (setExists lc (firstn 16 lab) = true) as C; [|congruence]. apply existsb_exists.
          apply in_map_iff in Hpin. destruct Hpin as (b & Eb & Hb). exists b. split; [exact Hb|].
          unfold strBeginsWith. apply strEqb_eq. rewrite firstn_length, Eb.
          replace (Nat.min 16 (length lab)) with 16%nat by (destruct (labelAny_len lab Hlabin); lia). exact Hpre.
        * destruct Hgm as [_ Hf]. apply labelFull_len in Hf. contradiction.
  Qed.

  Lemma reconstruct_spec : let r := reconstruct s hist l in
    ordered r /\ ancestorsListed r /\ (forall b, In b r -> entryOk b) /\ (forall b, In b l1 -> In b r) /\
    (forall x, In x (map bkLabel r) <-> usable s hist l x).
  Proof.
    unfold reconstruct. fold l1. apply (addLoop_spec (strLstSortAsc (labels l1))) with (pre := []).
    - intros x. apply strLstSortAsc_in.
    - reflexivity.
    - apply l1_ord.
    - apply l1_closed.
    - intros b Hb. left. eapply sublist_in; [apply l1_sub|exact Hb].
    - auto.
    - intros x. cbn. tauto.
  Qed.

  Lemma reconstruct_agrees : agrees s (reconstruct s hist l).
  Proof.
    destruct reconstruct_spec as (_ & _ & He & _). intros b m Hb Hm. destruct (He b Hb) as [Hbl|[_ (m' & Hm' & E)]]; [now apply Hag|].
    assert (m' = m) by congruence. subst m'. rewrite E at 1. eapply dataFromManifest_prior, manifestOf_good; eauto.
  Qed.

  Lemma reconstruct_wellLabelled : wellLabelled l -> wellLabelled (reconstruct s hist l).
  Proof.
    intros Hw. destruct reconstruct_spec as (_ & _ & He & _). intros b Hb. destruct (He b Hb) as [Hbl|[_ (m & Hm & E)]]; [now apply Hw|].
    pose proof (manifestOf_good s _ m Hg Hm) as Hgm.
    assert (Ep : bkPrior b = mfPrior m) by (rewrite E at 1; eapply dataFromManifest_prior; eauto). rewrite Ep.
    destruct Hgm as (_ & Hany & Hgm). destruct (mfPrior m) as [p|]; [|tauto].
    destruct Hgm as (_ & Hnf & _ & Hpre). split; [|exact Hpre]. unfold labelAny in Hany. rewrite Hnf in Hany. exact Hany.
  Qed.
End Reconstruct.
