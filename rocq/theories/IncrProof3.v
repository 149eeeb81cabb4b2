(** Proofs about any sequence of backups. *)
From Coq Require Import Permutation.
From Verif Require Import Base Str IncrModel IncrSpec IncrProof IncrProof2.
Open Scope Z_scope.

Section History.
  Variable sha1 : list Z -> list Z.
  Variable cfgOf : str -> bcfg.

  Record inv (w : list manifest) (r : repo) : Prop := mkInv {
    iLabels : NoDup (map mLabel w);
    iRefs : forall m, In m w -> (forall l, In l (mReferences m) -> In l (map mLabel w)) /\
      match mPrior m with
      | None => mReferences m = [mLabel m]
      | Some p => exists mp, In mp w /\ mLabel mp = p /\ mReferences m = mReferences mp ++ [mLabel m] /\ mCompressExt mp = mCompressExt m
      end;
    iNames : forall m, In m w -> NoDup (map bfName (mFiles m));
    iFiles : forall m f, In m w -> In f (mFiles m) -> resolves sha1 cfgOf w r m f }.

  Lemma restore_label : forall m f, pathLabel (restorePath m f) = owner m f.
  Proof. intros. unfold restorePath, repoPath. destruct (bfBundleId f =? 0); reflexivity. Qed.
  Lemma refs_last : forall w r m, inv w r -> In m w -> In (mLabel m) (mReferences m).
  Proof.
    intros w r m Hi Hm. destruct (iRefs _ _ Hi m Hm) as [_ H]. destruct (mPrior m).
    - destruct H as (mp & _ & _ & -> & _). apply in_or_app. right. left. reflexivity.
    - rewrite H. left. reflexivity.
  Qed.

  (** The content of a file is not changed if the paths of its owner are not. *)
  Lemma resolves_mono : forall w r w' r' m f, resolves sha1 cfgOf w r m f ->
    (forall mo, In mo w -> mLabel mo = owner m f -> In mo w') ->
    (forall q, pathLabel q = owner m f -> r' q = r q) -> resolves sha1 cfgOf w' r' m f.
  Proof.
    intros w r w' r' m f (H1 & mo & fo & H2 & H3 & H4 & H5 & H6 & H7 & H8 & H9) Hw Hr. split; [exact H1|].
    exists mo, fo. split; [auto|]. split; [auto|]. split; [auto|]. split; [auto|]. split; [auto|]. split; [auto|]. split; [exact H8|]. intros Hz. destruct (H9 Hz) as (whole & b & Hc & Hrest). exists whole, b.
    split; [|exact Hrest]. rewrite Hr; [exact Hc|]. apply restore_label.
  Qed.

  Lemma fileFind_some : forall name files p, fileFind name files = Some p -> In p files /\ bfName p = name.
  Proof. intros name files p H. apply find_some in H. destruct H as [H1 H2]. apply strEqb_eq in H2. auto. Qed.

  (** ** a file of an incremental manifest *)
  Lemma buildIncrFile_spec : forall delta pl prior f, builtFile sha1 f ->
    let g := buildIncrFile delta pl prior f in
    bfName g = bfName f /\ bfResume g = false /\
    (g = f \/ exists p, In p prior /\ bfName p = bfName f /\
       (bfReference g = None /\ bfCopy g = true \/
        bfReference g = Some (match bfReference p with Some r => r | None => pl end) /\ sameStored p g)).
  Proof.
    intros delta pl prior f (B1 & B2 & B3 & B4 & B5 & B6 & B7). cbn. unfold buildIncrFile.
    destruct (bfCopy f) eqn:Ec; [|auto]. destruct (fileFind (bfName f) prior) as [p|] eqn:Ef; [|auto].
    apply fileFind_some in Ef. destruct Ef as [Hp Hn].
    destruct (bfSize f =? bfSize p) eqn:Es; cbn [orb].
    - cbn. split; [reflexivity|]. split; [exact B6|]. right. exists p. split; [exact Hp|]. split; [exact Hn|]. right. split; [reflexivity|].
      repeat split; reflexivity.
    - destruct (_ && _) eqn:Ep; cbn; (split; [reflexivity|]; split; [exact B6|]; right; exists p; split; [exact Hp|]; split; [exact Hn|]).
      + right. split; [reflexivity|]. repeat split; reflexivity.
      + left. split; [exact B1|]. rewrite !andb_false_r. cbn.
        destruct ((bfSize f =? 0) && (bfSize p =? 0)) eqn:Ez; [|reflexivity]. exfalso. apply andb_prop in Ez. destruct Ez as [E1 E2].
        apply Z.eqb_eq in E1, E2. apply Z.eqb_neq in Es. congruence.
  Qed.

  Lemma run_fields : forall cfg m label stop jobs r m' r', backupRun sha1 cfg m label stop jobs r = Ok (m', r') ->
    exists files, backupProcess sha1 cfg (labelSet m label) jobs r = Ok (files, r') /\ m' = buildComplete (labelSet m label) stop files.
  Proof.
    intros cfg m label stop jobs r m' r' H. unfold backupRun in H.
    destruct (backupProcess sha1 cfg (labelSet m label) jobs r) as [[files r1]| |] eqn:E; cbn in H; try discriminate.
    injection H as <- <-. eauto.
  Qed.

  (** ** a backup keeps the invariant *)
  Lemma step_backup : forall w r m label stop jobs m' r',
    inv w r -> cfgOk (cfgOf label) -> ~ In label (map mLabel w) ->
    NoDup (map bfName (mFiles m)) -> noCollision (cfgOf label) m -> jobsOk m jobs ->
    backupRun sha1 (cfgOf label) m label stop jobs r = Ok (m', r') ->
    match mPrior m with
    | None => mReferences m = []
    | Some p => exists mp, In mp w /\ mLabel mp = p /\ mReferences m = mReferences mp /\ mCompressExt mp = mCompressExt m
    end ->
    Forall (fun f =>
      (bfReference f = None /\ (bfCopy f = false -> bfSize f = 0) /\ (bfResume f = true -> resumedFile (cfgOf label) f)) \/
      (bfResume f = false /\ exists mp p, In mp w /\ mPrior m = Some (mLabel mp) /\ In p (mFiles mp) /\ bfName p = bfName f /\
         bfReference f = Some (owner mp p) /\ sameStored p f)) (mFiles m) ->
    inv (m' :: w) r'.
  Proof.
    intros w r m label stop jobs m' r' Hi [Hplain Hmap] Hfresh Hnames Hcol Hjobs Hrun Hprior Hfiles.
    destruct (run_fields _ _ _ _ _ _ _ _ Hrun) as (files & Hp & ->).
    destruct (process_spec _ _ _ _ _ _ _ Hp Hjobs Hcol Hnames) as (Hq & Hfin & Hnd & _). cbn [labelSet mLabel mFiles] in *.
    assert (Hold : forall l, In l (map mLabel w) -> forall q, pathLabel q = l -> r' q = r q).
    { intros l Hl q Hql. apply Hq. congruence. }
    assert (Hown : forall m0 f, In m0 w -> In f (mFiles m0) -> In (owner m0 f) (map mLabel w)).
    { intros m0 f Hm0 Hf. destruct (iFiles _ _ Hi m0 f Hm0 Hf) as (Hin & _). apply (proj1 (iRefs _ _ Hi m0 Hm0)). exact Hin. }
    constructor.
    - cbn. constructor; [exact Hfresh|]. apply (iLabels _ _ Hi).
    - intros m0 [<-|Hm0].
      + cbn. destruct (mPrior m) as [p|].
        * destruct Hprior as (mp & H1 & H2 & H3 & H4). split.
          { intros l Hl. apply in_app_or in Hl. destruct Hl as [Hl|[<-|[]]]; [|left; reflexivity]. right. rewrite H3 in Hl.
            apply (proj1 (iRefs _ _ Hi mp H1)). exact Hl. }
          exists mp. split; [right; exact H1|]. split; [exact H2|]. rewrite H3. auto.
        * rewrite Hprior. cbn. split; [|reflexivity]. intros l [<-|[]]. left. reflexivity.
      + destruct (iRefs _ _ Hi m0 Hm0) as [H1 H2]. split. { intros l Hl. right. auto. }
        destruct (mPrior m0); [|exact H2]. destruct H2 as (mp & H2 & H3). exists mp. split; [right; exact H2|exact H3].
    - intros m0 [<-|Hm0]; [exact Hnd|]. apply (iNames _ _ Hi). exact Hm0.
    - intros m0 f' [<-|Hm0] Hf'.
      2: { eapply resolves_mono. { apply (iFiles _ _ Hi); eassumption. } { intros mo Hmo _. right. exact Hmo. }
           apply Hold. apply Hown; assumption. }
      cbn [buildComplete mFiles labelSet] in Hf'. destruct (Hfin f' Hf') as (f & Hf & Hcase).
      rewrite Forall_forall in Hfiles. specialize (Hfiles f Hf).
      set (mm := buildComplete (labelSet m label) stop files) in *.
      assert (Hself : forall g, In g (mFiles mm) -> bfReference g = None -> (bfSize g <> 0 -> contentStored sha1 cfgOf r' mm g g) -> resolves sha1 cfgOf (mm :: w) r' mm g).
      { intros g Hg Href Hc. split.
        - unfold owner. rewrite Href. cbn. apply in_or_app. right. left. reflexivity.
        - exists mm, g. split; [left; reflexivity|]. split. { unfold owner. rewrite Href. reflexivity. }
          split; [auto|]. split; [auto|]. split; [auto|]. split; [auto|]. split; [repeat split; reflexivity|]. exact Hc. }
      assert (Hpr : bfReference f <> None -> resolves sha1 cfgOf (mm :: w) r' mm f).
      { intros Hne. destruct Hfiles as [[Hnone _]|(_ & mp & p & H1 & H2 & H3 & H4 & H5 & H6)]; [congruence|].
        destruct (iFiles _ _ Hi mp p H1 H3) as (Hin & mo & fo & G1 & G2 & G3 & G4 & G5 & G6 & G7 & G8).
        rewrite H2 in Hprior. destruct Hprior as (mp' & K1 & K2 & K3 & K4).
        assert (mp' = mp) as ->.
        { clear - Hi K1 K2 H1. pose proof (iLabels _ _ Hi) as Hl. clear Hi. induction w as [|x w IH]; [easy|]. cbn in Hl. inversion Hl as [|? ? Hni Hl']; subst.
          destruct K1 as [->|K1], H1 as [->|H1]; auto.
          - exfalso. apply Hni. rewrite K2. apply in_map. exact H1.
          - exfalso. apply Hni. rewrite <- K2. apply in_map. exact K1. }
        assert (Ho : owner mm f = owner mp p). { unfold owner at 1. rewrite H5. reflexivity. }
        split. { rewrite Ho. cbn. apply in_or_app. left. rewrite K3. exact Hin. }
        exists mo, fo. split; [right; exact G1|]. split; [congruence|]. split; [cbn; congruence|]. split; [exact G4|]. split; [congruence|].
        split; [exact G6|]. pose proof H6 as H6'. destruct H6 as (S1 & S2 & S3 & S4 & S5 & S6 & S7 & S8 & S9).
        split. { destruct G7 as (T1 & T2 & T3 & T4 & T5 & T6 & T7 & T8 & T9). repeat split; congruence. }
        intros Hz. rewrite <- S1 in Hz. destruct (G8 Hz) as (whole & b & C1 & C2 & C3 & C4 & C5).
        assert (Hpath : restorePath mm f = restorePath mp p).
        { unfold restorePath. rewrite Ho, <- H4, <- S5, <- S9. cbn. rewrite K4. reflexivity. }
        exists whole, b. split. { rewrite Hpath. rewrite (Hold (owner mp p)); [exact C1|apply Hown; assumption|apply restore_label]. }
        split; [congruence|]. split; [congruence|]. split; [rewrite <- S2, <- S4; exact C4|].
        intros Hr. destruct (C5 Hr) as (f0 & c & D1 & D2 & D3 & D4). exists f0, c. rewrite Ho, <- S5, <- S6. repeat split; congruence. }
      destruct Hcase as [[-> Hcase]|[Hcopy (id & b & env & -> & _ & Hcase)]].
      + destruct Hcase as [Hnc|[[Href _]|[Hres Hrepo]]].
        * destruct (bfReference f) eqn:Er; [apply Hpr; congruence|]. destruct Hfiles as [(_ & Hz & _)|(_ & mp & p & _ & _ & _ & _ & H5 & _)]; [|congruence].
          apply Hself; auto. intros Hnz. elim Hnz. auto.
        * apply Hpr. exact Href.
        * destruct Hfiles as [(_ & _ & Hrf)|[Hrf _]]; [|congruence]. destruct (Hrf Hres) as (R1 & R2 & R3 & R4 & R5 & R6 & R7).
          apply Hself; auto. intros _. destruct Hrepo as (whole & W1 & W2 & W3). exists whole, whole.
          split. { unfold restorePath, owner. rewrite R1, R2, R7. exact W1. }
          split. { rewrite R3, W2. symmetry. apply slice_whole. }
          split; [auto|]. split; [exact W3|]. congruence.
      + destruct Hcase as [(Eb & Hs & _)|(Eb & whole & Hw & c & C1 & C2 & C3 & C4 & C5 & C6 & _)].
        * apply Hself; [exact Hf'|reflexivity|]. cbn. intros Hnz. elim Hnz. exact Hs.
        * apply Hself; [exact Hf'|reflexivity|]. cbn [jobUpdate bfSize]. intros Hnz.
          assert (Hcne : c <> []). { intros ->. apply Hnz. rewrite C3. reflexivity. }
          exists whole, (slice whole (brOffset b) (brRepoSize b)).
          split.
          { unfold restorePath, owner. cbn [jobUpdate bfReference bfName bfBundleId bfMapSize]. rewrite Eb, C6.
            cbn [mm buildComplete labelSet mLabel mCompressExt] in *.
            replace (negb ((if isBlock (cfgOf label) f then bcMapSize (cfgOf label) id (brOffset b) f c else 0) =? 0)) with (isBlock (cfgOf label) f); [exact Hw|].
            destruct (isBlock (cfgOf label) f) eqn:Ei; [|reflexivity]. pose proof (Hmap id (brOffset b) f c Ei Hcne) as Hpos.
            symmetry. apply negb_true_iff, Z.eqb_neq. lia. }
          split; [reflexivity|]. split; [exact C2|].
          split.
          { cbn [jobUpdate bfRepoChecksum bfChecksum]. rewrite C5. destruct (bcFiltered (cfgOf label)) eqn:Efl; [reflexivity|].
            destruct (isBlock (cfgOf label) f) eqn:Ei; cbn [orb]; [reflexivity|]. rewrite C4. cbn in C1. rewrite C1, Hplain; auto. }
          intros _. exists f, c. cbn [jobUpdate bfName bfSize bfChecksum bfBundleId bfBundleOffset]. rewrite Eb.
          unfold owner. cbn [jobUpdate bfReference mm buildComplete labelSet mLabel]. repeat split; auto.
  Qed.

  (** ** expiration keeps the invariant *)
  Lemma expire_refs : forall w r (keep : str -> bool), inv w r ->
    (forall m p, In m w -> mPrior m = Some p -> keep p = false -> keep (mLabel m) = false) ->
    forall n m, (length (mReferences m) <= n)%nat -> In m w -> keep (mLabel m) = true -> forall l, In l (mReferences m) -> keep l = true.
  Proof.
    intros w r keep Hi Hk n. induction n as [|n IH]; intros m Hn Hm Hkm l Hl.
    - destruct (mReferences m); [easy|cbn in Hn; lia].
    - destruct (iRefs _ _ Hi m Hm) as [_ H]. destruct (mPrior m) as [p|] eqn:Ep.
      + destruct H as (mp & H1 & H2 & H3 & _). rewrite H3 in Hl, Hn. rewrite app_length in Hn. cbn in Hn.
        apply in_app_or in Hl. destruct Hl as [Hl|[<-|[]]]; [|exact Hkm].
        apply (IH mp); auto; [lia|]. destruct (keep (mLabel mp)) eqn:Ek; [reflexivity|]. rewrite H2 in Ek. rewrite (Hk m p Hm Ep Ek) in Hkm. discriminate.
      + rewrite H in Hl. destruct Hl as [<-|[]]. exact Hkm.
  Qed.

  Lemma step_expire : forall w r (keep : str -> bool) r', inv w r ->
    (forall m p, In m w -> mPrior m = Some p -> keep p = false -> keep (mLabel m) = false) ->
    (forall p, keep (pathLabel p) = true -> In (pathLabel p) (map mLabel w) -> r' p = r p) ->
    inv (filter (fun m => keep (mLabel m)) w) r'.
  Proof.
    intros w r keep r' Hi Hk Hr.
    assert (Hin : forall m, In m (filter (fun m => keep (mLabel m)) w) <-> In m w /\ keep (mLabel m) = true) by (intros; apply filter_In).
    assert (Hlab : forall l, In l (map mLabel w) -> keep l = true -> In l (map mLabel (filter (fun m => keep (mLabel m)) w))).
    { intros l Hl Hkl. apply in_map_iff in Hl. destruct Hl as (m & <- & Hm). apply in_map. apply Hin. auto. }
    constructor.
    - pose proof (iLabels _ _ Hi) as Hl. clear - Hl. induction w as [|m w IH]; [constructor|]. cbn in *. inversion Hl as [|? ? Hni Hl']; subst.
      destruct (keep (mLabel m)); cbn; auto. constructor; auto. intros H. apply Hni. apply in_map_iff in H. destruct H as (x & <- & Hx).
      apply in_map. apply filter_In in Hx. tauto.
    - intros m Hm. apply Hin in Hm. destruct Hm as [Hm Hkm]. destruct (iRefs _ _ Hi m Hm) as [H1 H2]. split.
      + intros l Hl. apply Hlab; auto. eapply expire_refs; eauto.
      + destruct (mPrior m) as [p|] eqn:Ep; [|exact H2]. destruct H2 as (mp & G1 & G2 & G3 & G4). exists mp. split; [|auto].
        apply Hin. split; [exact G1|]. destruct (keep (mLabel mp)) eqn:Ek; [reflexivity|]. rewrite G2 in Ek. rewrite (Hk m p Hm Ep Ek) in Hkm. discriminate.
    - intros m Hm. apply Hin in Hm. apply (iNames _ _ Hi). tauto.
    - intros m f Hm Hf. apply Hin in Hm. destruct Hm as [Hm Hkm]. pose proof (iFiles _ _ Hi m f Hm Hf) as Hres.
      assert (Hko : keep (owner m f) = true). { destruct Hres as (H & _). eapply expire_refs; eauto. }
      eapply resolves_mono; [exact Hres| |].
      + intros mo Hmo Hlo. apply Hin. split; [exact Hmo|]. congruence.
      + intros q Hq. apply Hr; rewrite Hq; [exact Hko|]. destruct Hres as (H & _). apply (proj1 (iRefs _ _ Hi m Hm)). exact H.
  Qed.

  Lemma history_inv : forall w r, history sha1 cfgOf w r -> inv w r.
  Proof.
    intros w r H. induction H as [r|w r m delta copyStart ext m' files label stop jobs m'' r' H IH Hcfg Hfresh Href Hprior Hnames Hbuilt Hres -> Hcol Hjobs Hrun
      |w r m prior delta copyStart start m' label stop jobs m'' r' H IH Hcfg Hfresh Hnames Hbuilt Hpr -> Hcol Hjobs Hrun
      |w r keep r' H IH Hk Hr].
    - constructor; try easy. constructor.
    - refine (step_backup w r _ label stop jobs m'' r' IH Hcfg Hfresh _ Hcol Hjobs Hrun _ _).
      + cbn. clear - Hnames Hres. replace (map bfName files) with (map bfName (mFiles m)); [exact Hnames|].
        clear Hnames. induction Hres as [|f g l l' Hh HF IH]; [reflexivity|]. cbn. rewrite IH. f_equal. destruct Hh as [->|[Hh _]]; congruence.
      + cbn. rewrite Hprior. exact Href.
      + cbn. clear - Hbuilt Hres. induction Hres as [|f g l l' Hh HF IH]; [constructor|]. inversion Hbuilt as [|? ? Hb Hbuilt']; subst.
        constructor; [|auto]. left. destruct Hh as [->|[Hn Hg]].
        * destruct Hb as (B1 & B2 & B3 & B4 & B5 & B6 & B7). split; [exact B1|]. split; [intros Hc; apply B7; exact Hc|]. congruence.
        * pose proof Hg as (R1 & R2 & R3 & R4 & R5 & R6 & R7). split; [exact R1|]. split; [congruence|]. auto.
    - refine (step_backup w r _ label stop jobs m'' r' IH Hcfg Hfresh _ Hcol Hjobs Hrun _ _).
      + cbn. rewrite map_map. replace (map _ (mFiles m)) with (map bfName (mFiles m)); [exact Hnames|].
        apply map_ext_in. intros f Hf. rewrite Forall_forall in Hbuilt. symmetry. apply buildIncrFile_spec. auto.
      + cbn. exists prior. auto.
      + cbn. rewrite Forall_forall in *. intros g Hg. apply in_map_iff in Hg. destruct Hg as (f & <- & Hf).
        set (dl := if _ : bool then true else _). pose proof (Hbuilt f Hf) as Hb.
        destruct (buildIncrFile_spec dl (mLabel prior) (mFiles prior) f Hb) as (Hn & Hr & Hc).
        destruct Hc as [->|(p & Hp & Hpn & Hc)].
        * left. destruct Hb as (B1 & B2 & B3 & B4 & B5 & B6 & B7). split; [exact B1|]. split; [intros Hcp; apply B7; exact Hcp|]. congruence.
        * destruct Hc as [[Hc1 Hc2]|[Hc1 Hc2]].
          -- left. split; [exact Hc1|]. split; congruence.
          -- right. split; [exact Hr|]. exists prior, p. repeat split; auto; try congruence.
             all: destruct Hc2 as (S1 & S2 & S3 & S4 & S5 & S6 & S7 & S8 & S9); assumption.
    - eapply step_expire; eauto.
  Qed.
End History.
