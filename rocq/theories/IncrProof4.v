(** Proofs about the choice of the files to copy. *)
From Coq Require Import Permutation.
From Verif Require Import Base Str IncrModel IncrSpec IncrProof IncrProof2 IncrProof3.
Open Scope Z_scope.

Section Delta.
  Variable sha1 : list Z -> list Z.

  Lemma deltaCheck_true : forall files prior, NoDup (map bfName prior) ->
    deltaCheck files prior = true <->
    exists f p, In f files /\ In p prior /\ bfName p = bfName f /\
      (bfTimestamp f < bfTimestamp p \/ bfTimestamp f = bfTimestamp p /\ bfSizeOriginal f <> bfSizeOriginal p).
  Proof.
    intros files prior Hnd. unfold deltaCheck. rewrite existsb_exists. split.
    - intros (f & Hf & H). destruct (fileFind (bfName f) prior) as [p|] eqn:E; [|discriminate]. apply fileFind_some in E. destruct E as [Hp Hn].
      exists f, p. repeat split; auto. apply orb_prop in H. destruct H as [H|H]; [left; lia|right].
      apply andb_prop in H. destruct H as [H1 H2]. apply negb_true_iff, Z.eqb_neq in H1. apply Z.eqb_eq in H2. auto.
    - intros (f & p & Hf & Hp & Hn & H). exists f. split; [exact Hf|].
      assert (fileFind (bfName f) prior = Some p) as ->.
      { clear - Hnd Hp Hn. unfold fileFind. induction prior as [|x l IH]; [easy|]. cbn in *. inversion Hnd as [|? ? Hni Hnd']; subst.
        destruct Hp as [->|Hp].
        - rewrite Hn, strEqb_refl. reflexivity.
        - destruct (strEqb (bfName x) (bfName f)) eqn:E; [|auto]. exfalso. apply strEqb_eq in E. apply Hni. rewrite E, <- Hn. apply in_map. exact Hp. }
      apply orb_true_iff. destruct H as [H|[H1 H2]]; [left; lia|right]. apply andb_true_iff. split; [|lia]. apply negb_true_iff, Z.eqb_neq. exact H2.
  Qed.

  Lemma incr_delta : forall m prior delta copyStart start, NoDup (map bfName (mFiles prior)) ->
    mDelta (incrManifest m prior delta copyStart start) = true <->
    delta = true \/ (exists f, In f (mFiles m) /\ copyStart < bfTimestamp f) \/
    (exists a b, start = Some a /\ mArchiveStop prior = Some b /\ firstn 8 a <> firstn 8 b) \/
    mOnline prior <> mOnline m \/
    exists f p, In f (mFiles m) /\ In p (mFiles prior) /\ bfName p = bfName f /\
      (bfTimestamp f < bfTimestamp p \/ bfTimestamp f = bfTimestamp p /\ bfSizeOriginal f <> bfSizeOriginal p).
  Proof.
    intros m prior delta copyStart start Hnd. unfold incrManifest, buildIncr, buildValidate. cbn [mDelta mOnline mFiles]. rewrite <- (deltaCheck_true _ _ Hnd).
    set (dc := deltaCheck _ _).
    assert (Ht : timelineDiffers start (mArchiveStop prior) = true <-> exists a b, start = Some a /\ mArchiveStop prior = Some b /\ firstn 8 a <> firstn 8 b).
    { unfold timelineDiffers. destruct start as [a|], (mArchiveStop prior) as [b|]; split; try discriminate; try (intros (x & y & H1 & H2 & _); discriminate).
      - intros H. exists a, b. repeat split; auto. intros He. rewrite He, strEqb_refl in H. discriminate.
      - intros (x & y & H1 & H2 & H3). injection H1 as <-. injection H2 as <-. destruct (strEqb (firstn 8 a) (firstn 8 b)) eqn:E; [|reflexivity].
        apply strEqb_eq in E. contradiction. }
    rewrite <- Ht. assert (He : existsb (fun f => copyStart <? bfTimestamp f) (mFiles m) = true <-> exists f, In f (mFiles m) /\ copyStart < bfTimestamp f).
    { rewrite existsb_exists. split; intros (f & Hf & H); exists f; (split; [exact Hf|]); lia. }
    rewrite <- He. assert (Hon : negb (Bool.eqb (mOnline prior) (mOnline m)) = true <-> mOnline prior <> mOnline m).
    { destruct (mOnline prior), (mOnline m); cbn; split; congruence. }
    rewrite <- Hon. clearbody dc. clear. destruct (timelineDiffers start (mArchiveStop prior)), (negb (Bool.eqb (mOnline prior) (mOnline m))), delta, (existsb (fun f => copyStart <? bfTimestamp f) (mFiles m)), dc;
      cbn; (split; [intros H; try discriminate H; auto 7|intros [H|[H|[H|[H|H]]]]; try discriminate H; auto]).
  Qed.

  (** ** the decision for a file *)
  Lemma incr_file : forall m prior delta copyStart start g, In g (mFiles (incrManifest m prior delta copyStart start)) ->
    exists f, In f (mFiles m) /\ g = buildIncrFile (mDelta (incrManifest m prior delta copyStart start)) (mLabel prior) (mFiles prior) f.
  Proof. intros m prior delta copyStart start g H. cbn in H. apply in_map_iff in H. destruct H as (f & <- & Hf). exists f. split; [exact Hf|reflexivity]. Qed.

  Lemma incr_nodelta_pair : forall m prior delta copyStart start f p, mDelta (incrManifest m prior delta copyStart start) = false ->
    In f (mFiles m) -> fileFind (bfName f) (mFiles prior) = Some p ->
    bfTimestamp p <= bfTimestamp f /\ (bfTimestamp f = bfTimestamp p -> bfSizeOriginal f = bfSizeOriginal p).
  Proof.
    intros m prior delta copyStart start f p Hd Hf Hp. unfold incrManifest, buildIncr in Hd. cbn in Hd.
    set (d0 := if timelineDiffers _ _ then true else _) in Hd. destruct d0; [discriminate|].
    unfold deltaCheck in Hd. assert (Hx : ~ exists x, In x (mFiles m) /\ (fun f => match fileFind (bfName f) (mFiles prior) with
                    | None => false
                    | Some p => (bfTimestamp f <? bfTimestamp p) || (negb (bfSizeOriginal f =? bfSizeOriginal p) && (bfTimestamp f =? bfTimestamp p))
                    end) x = true). { rewrite <- existsb_exists. congruence. }
    destruct ((bfTimestamp f <? bfTimestamp p) || (negb (bfSizeOriginal f =? bfSizeOriginal p) && (bfTimestamp f =? bfTimestamp p))) eqn:E.
    { exfalso. apply Hx. exists f. rewrite Hp. auto. }
    apply orb_false_iff in E. destruct E as [E1 E2]. split; [lia|]. intros He. apply Z.eqb_eq in He. rewrite He, andb_true_r in E2.
    apply negb_false_iff, Z.eqb_eq in E2. exact E2.
  Qed.

  Lemma incr_not_copied : forall m prior delta copyStart start g,
    let m' := incrManifest m prior delta copyStart start in
    In g (mFiles m') -> bfCopy g = false ->
    exists f, In f (mFiles m) /\ bfName f = bfName g /\
      (bfCopy f = false /\ g = f \/
       exists p, In p (mFiles prior) /\ bfName p = bfName g /\ bfSize f = bfSize p /\ bfSize g = bfSize p /\ bfChecksum g = bfChecksum p /\
         (bfSize f = 0 \/ mDelta m' = false /\ bfTimestamp f = bfTimestamp p /\ bfSizeOriginal f = bfSizeOriginal p)).
  Proof.
    intros m prior delta copyStart start g m' Hg Hc. destruct (incr_file _ _ _ _ _ _ Hg) as (f & Hf & Hgf). fold m' in Hgf.
    exists f. split; [exact Hf|]. unfold buildIncrFile in Hgf. destruct (bfCopy f) eqn:Ec.
    2: { subst g. auto. }
    destruct (fileFind (bfName f) (mFiles prior)) as [p|] eqn:Ef; [|subst g; congruence].
    pose proof (fileFind_some _ _ _ Ef) as [Hp Hn].
    destruct (bfSize f =? bfSize p) eqn:Es.
    - cbn [orb] in Hgf. subst g. cbn [bfName bfCopy bfSize bfChecksum] in *. split; [reflexivity|]. right. exists p. apply Z.eqb_eq in Es. repeat split; auto.
      destruct (bfSize f =? 0) eqn:Ez. { left. lia. }
      right. destruct (mDelta m') eqn:Ed; cbn [andb negb] in Hc.
      + discriminate.
      + destruct (bfTimestamp f =? bfTimestamp p) eqn:Et; [|discriminate]. apply Z.eqb_eq in Et.
        destruct (incr_nodelta_pair _ _ _ _ _ _ _ Ed Hf Ef) as [_ H2]. auto.
    - exfalso. rewrite !andb_false_r in Hgf. cbn [negb andb orb] in Hgf. apply Z.eqb_neq in Es.
      destruct ((bfSize f =? 0) && (bfSize p =? 0)) eqn:Ez. { apply andb_prop in Ez. destruct Ez as [E1 E2]. lia. }
      destruct (_ && _) in Hgf; subst g; cbn in Hc; congruence.
  Qed.

  Lemma incr_with_delta : forall m prior delta copyStart start f,
    let m' := incrManifest m prior delta copyStart start in
    mDelta m' = true -> In f (mFiles m) -> NoDup (map bfName (mFiles m)) -> Forall (builtFile sha1) (mFiles m) -> bfCopy f = true -> bfSize f <> 0 ->
    exists g, In g (mFiles m') /\ bfName g = bfName f /\ bfCopy g = true /\
      (bfDelta g = true <-> exists p, fileFind (bfName f) (mFiles prior) = Some p /\ bfSize p = bfSize f) /\
      (bfDelta g = true -> bfReference g <> None).
  Proof.
    intros m prior delta copyStart start f m' Hd Hf Hnd Hb Hc Hz. rewrite Forall_forall in Hb. specialize (Hb f Hf).
    exists (buildIncrFile (mDelta m') (mLabel prior) (mFiles prior) f). split. { cbn. apply in_map. exact Hf. }
    rewrite Hd. unfold buildIncrFile. rewrite Hc. apply Z.eqb_neq in Hz. rewrite Hz. cbn [andb negb].
    destruct Hb as (B1 & B2 & B3 & B4 & B5 & B6 & B7).
    destruct (fileFind (bfName f) (mFiles prior)) as [p|] eqn:Ef.
    - destruct (bfSize f =? bfSize p) eqn:Es; cbn.
      + repeat split; auto; try congruence. intros _. exists p. split; [reflexivity|]. lia.
      + destruct (_ && _); cbn; (repeat split; auto; try congruence; intros (q & Hq & Hs); injection Hq as <-; lia).
    - repeat split; auto; try congruence. intros (q & Hq & _). discriminate.
  Qed.

  (** ** a whole incremental backup *)
  Lemma incr_names : forall m prior delta copyStart start, Forall (builtFile sha1) (mFiles m) ->
    map bfName (mFiles (incrManifest m prior delta copyStart start)) = map bfName (mFiles m).
  Proof.
    intros m prior delta copyStart start Hb. cbn. rewrite map_map. apply map_ext_in. intros f Hf. rewrite Forall_forall in Hb.
    apply (buildIncrFile_spec sha1). auto.
  Qed.

  Lemma incr_run : forall cfg m prior delta copyStart start label stop jobs r m'' r',
    let m' := incrManifest m prior delta copyStart start in
    NoDup (map bfName (mFiles m)) -> Forall (builtFile sha1) (mFiles m) -> noCollision cfg m' -> jobsOk m' jobs ->
    backupRun sha1 cfg m' label stop jobs r = Ok (m'', r') ->
    (forall g, In g (mFiles m'') ->
       (exists l f p, bfReference g = Some l /\ In f (mFiles m) /\ bfName f = bfName g /\ In p (mFiles prior) /\ bfName p = bfName g /\
          bfSize g = bfSize p /\ bfChecksum g = bfChecksum p /\
          ((exists f1 env, bfName f1 = bfName g /\ inJob jobs f1 env /\ readSame sha1 env g) \/
           bfSize f = bfSize p /\ (bfSize f = 0 \/ mDelta m' = false /\ bfTimestamp f = bfTimestamp p /\ bfSizeOriginal f = bfSizeOriginal p))) \/
       (bfReference g = None /\ exists f1 env c, bfName f1 = bfName g /\ inJob jobs f1 env /\ readCopy env f1 c /\ bfSize g = zlen c /\ bfChecksum g = Some (sha1 c)) \/
       (bfReference g = None /\ bfSize g = 0 /\ bfChecksum g = Some (sha1 []) /\ exists f, In f (mFiles m) /\ bfName f = bfName g /\ bfSize f = 0)) /\
    (forall f, In f (mFiles m) -> ~ In (bfName f) (map bfName (mFiles m'')) ->
       exists f1 env, bfName f1 = bfName f /\ inJob jobs f1 env /\ (reDelta env = None \/ reCopy env = None)).
  Proof.
    intros cfg m prior delta copyStart start label stop jobs r m'' r' m' Hnd Hb Hcol Hjobs Hrun.
    destruct (run_fields _ _ _ _ _ _ _ _ _ Hrun) as (files & Hp & ->). cbn [buildComplete mFiles].
    assert (Hnames : NoDup (map bfName (mFiles (labelSet m' label)))). { cbn [labelSet mFiles]. unfold m'. rewrite incr_names by exact Hb. exact Hnd. }
    destruct (process_spec _ _ _ _ _ _ _ Hp Hjobs Hcol Hnames) as (_ & Hfin & _ & _ & Hlost). cbn [labelSet mFiles mLabel] in *. split.
    - intros g Hg. destruct (Hfin g Hg) as (f1 & Hf1 & Hc).
      destruct (incr_file _ _ _ _ _ _ Hf1) as (f & Hf & Hff). pose proof Hb as Hb'. rewrite Forall_forall in Hb'. specialize (Hb' f Hf).
      destruct (buildIncrFile_spec sha1 (mDelta (incrManifest m prior delta copyStart start)) (mLabel prior) (mFiles prior) f Hb') as (Hn & Hr & Hs).
      rewrite <- Hff in Hn, Hr, Hs.
      destruct Hc as [[-> Hc]|[Hcopy (id & b & env & -> & Hij & Hc)]].
      + destruct Hc as [Hnc|[[Href (env & Hij & Hsame)]|[Hres _]]]; [| |congruence].
        * destruct (incr_not_copied _ _ _ _ _ _ Hf1 Hnc) as (f2 & Hf2 & Hn2 & Hd).
          assert (f2 = f) as ->.
          { clear - Hnd Hf Hf2 Hn Hn2. rewrite <- Hn2 in Hn. clear Hn2. induction (mFiles m) as [|x l IH]; [easy|]. cbn in Hnd. inversion Hnd as [|? ? Hni Hnd']; subst.
            destruct Hf as [->|Hf], Hf2 as [->|Hf2]; auto.
            - exfalso. apply Hni. rewrite <- Hn. apply in_map. exact Hf2.
            - exfalso. apply Hni. rewrite Hn. apply in_map. exact Hf. }
          destruct Hd as [[Hcf ->]|(p & Hp1 & Hp2 & Hp3 & Hp4 & Hp5 & Hp6)].
          -- right. right. destruct Hb' as (B1 & _ & _ & _ & _ & _ & B7). destruct (B7 Hcf). repeat split; auto. exists f. auto.
          -- destruct Hs as [->|(p0 & P1 & P2 & [[_ Hx]|[Hx Hy]])].
             ++ right. right. destruct Hb' as (B1 & _ & _ & _ & _ & _ & B7). destruct (B7 Hnc). repeat split; auto. exists f. auto.
             ++ congruence.
             ++ left. exists (match bfReference p0 with Some r => r | None => mLabel prior end), f, p. repeat split; auto.
        * destruct Hs as [->|(p0 & P1 & P2 & [[Hx _]|[Hx (S1 & S2 & _)]])].
          -- destruct Hb' as (B1 & _). congruence.
          -- congruence.
          -- left. exists (match bfReference p0 with Some r => r | None => mLabel prior end), f, p0. repeat split; auto; try congruence.
             left. exists f1, env. auto.
      + right. left. split; [reflexivity|]. cbn. destruct Hc as [(Eb & H1 & H2 & H3)|(Eb & whole & Hw & c & C1 & C2 & C3 & C4 & C5 & C6 & C7)].
        * exists f1, env, []. repeat split; auto.
        * exists f1, env, c. repeat split; auto.
    - intros f Hf Hn. set (g := buildIncrFile (mDelta m') (mLabel prior) (mFiles prior) f).
      assert (Hg : In g (mFiles m')). { cbn. apply in_map. exact Hf. }
      assert (Hgn : bfName g = bfName f). { apply (buildIncrFile_spec sha1). rewrite Forall_forall in Hb. auto. }
      rewrite <- Hgn in Hn. destruct (Hlost g Hg Hn) as (_ & env & Hij & He). exists g, env. auto.
  Qed.
End Delta.
