(** Proofs about one backup: what is recorded of its files and where they are. *)
From Coq Require Import Permutation.
From Verif Require Import Base Str IncrModel IncrSpec IncrProof.
Open Scope Z_scope.

Section Run.
  Variable sha1 : list Z -> list Z.
  Variable cfg : bcfg.
  Notation job := (Z * list (bfile * readEnv))%type.
  Notation rec := (Z * (bfile * readEnv) * bres)%type.

  Definition jp (m : manifest) (j : job) : rpath := jobPath cfg m (fst j) (snd j).
  Definition recOk (m : manifest) (jobs : list job) (r : repo) (x : rec) : Prop :=
    let '(id, fe, b) := x in exists files, In (id, files) jobs /\ In fe files /\ outcome sha1 cfg id (jp m (id, files)) r fe b.
  Definition apply1 (st : list bfile * list str) (x : rec) := jobResult (fst (fst x)) st (snd x).

  Lemma outcome_repo : forall id path r r' fe b, r' path = r path -> outcome sha1 cfg id path r fe b -> outcome sha1 cfg id path r' fe b.
  Proof.
    intros id path r r' fe b E [H1 H2]. split; [exact H1|]. destruct (brResult b); auto.
    - rewrite E. exact H2.
    - destruct H2 as [H2 (w & H3)]. split; [exact H2|]. exists w. rewrite E. exact H3.
  Qed.

  Lemma Forall2_combine_rec : forall id (P : bfile * readEnv -> bres -> Prop) files l, Forall2 P files l ->
    exists res : list rec, map (fun x => snd (fst x)) res = files /\ (forall st, fold_left (jobResult id) l st = fold_left apply1 res st) /\
      Forall (fun x => fst (fst x) = id /\ In (snd (fst x)) files /\ P (snd (fst x)) (snd x)) res.
  Proof.
    intros id P files l HF. induction HF as [|fe b files l HP HF IH].
    - exists []. repeat split; constructor.
    - destruct IH as (res & H1 & H2 & H3). exists ((id, fe, b) :: res). cbn. split; [congruence|]. split.
      + intros st. apply H2.
      + constructor; [cbn; auto|]. eapply Forall_impl; [|exact H3]. cbn. tauto.
  Qed.

  Lemma processJobs_spec : forall m jobs r st st' r', processJobs sha1 cfg m jobs r st = Ok (st', r') ->
    NoDup (map (jp m) jobs) ->
    (forall id l, In (id, l) jobs -> (forall fe, In fe l -> bfResume (fst fe) = false) \/ length l = 1%nat) ->
    exists res : list rec, map (fun x => snd (fst x)) res = concat (map snd jobs) /\ st' = fold_left apply1 res st /\
      (forall q, ~ In q (map (jp m) jobs) -> r' q = r q) /\ Forall (recOk m jobs r') res.
  Proof.
    intros m jobs. induction jobs as [|[id files] jobs IH]; intros r st st' r' H Hnd Hres.
    - cbn in H. injection H as <- <-. exists []. cbn. repeat split; constructor.
    - cbn in H. destruct (backupFile sha1 cfg r (jobPath cfg m id files) id files) as [[l r1]| |] eqn:E; cbn in H; try discriminate.
      destruct (backupFile_spec _ _ _ _ _ _ _ _ E (Hres id files (or_introl eq_refl))) as [Hq HF].
      inversion Hnd as [|? ? Hni Hnd']; subst.
      destruct (IH _ _ _ _ H Hnd' (fun i l0 Hl => Hres i l0 (or_intror Hl))) as (res2 & Hm2 & Hst & Hq2 & Hok2).
      destruct (Forall2_combine_rec id _ _ _ HF) as (res1 & Hm1 & Hf1 & Hok1).
      exists (res1 ++ res2). split. { rewrite map_app, Hm1, Hm2. reflexivity. }
      split. { rewrite fold_left_app, <- Hf1. exact Hst. }
      split.
      { intros q Hn. cbn in Hn. rewrite Hq2 by tauto. apply Hq. intros ->. apply Hn. left. reflexivity. }
      apply Forall_app. split.
      + eapply Forall_impl; [|exact Hok1]. intros [[i fe] b] (H1 & H2 & H3). cbn in H1, H2, H3. subst i.
        exists files. split; [left; reflexivity|]. split; [exact H2|].
        eapply outcome_repo; [|exact H3]. apply (Hq2 (jp m (id, files))). exact Hni.
      + eapply Forall_impl; [|exact Hok2]. intros [[i fe] b] (fs & H1 & H2 & H3). exists fs. split; [right; exact H1|]. auto.
  Qed.

  (** ** the updates of the manifest *)
  Definition isUpd (b : bres) : bool := match brResult b with CopyCopy | CopyTruncate => true | _ => false end.
  Definition isSkip (b : bres) : bool := match brResult b with CopySkip => true | _ => false end.
  Definition upd (res : list rec) (f : bfile) : bfile :=
    match find (fun x => strEqb (bfName f) (brName (snd x))) res with
    | Some (id, _, b) => if isUpd b then jobUpdate id b f else f
    | None => f
    end.
  Lemma fold_results : forall res files remove, NoDup (map (fun x : rec => brName (snd x)) res) ->
    fold_left apply1 res (files, remove) = (map (upd res) files, remove ++ map (fun x => brName (snd x)) (filter (fun x => isSkip (snd x)) res)).
  Proof.
    intros res. induction res as [|[[id fe] b] res IH]; intros files remove Hnd.
    - cbn. rewrite app_nil_r. f_equal. unfold upd. cbn. symmetry. apply map_id.
    - cbn in Hnd. inversion Hnd as [|? ? Hni Hnd']; subst. cbn [fold_left apply1]. unfold apply1 at 2. cbn [fst snd].
      assert (Hfind : forall f, bfName f = brName b -> find (fun x : rec => strEqb (bfName f) (brName (snd x))) res = None).
      { intros f Hf. destruct (find _ res) as [x|] eqn:Ex; [|reflexivity]. exfalso. apply find_some in Ex. destruct Ex as [Hin Hx].
        apply strEqb_eq in Hx. apply Hni. rewrite <- Hf, Hx. apply (in_map (fun x : rec => brName (snd x))). exact Hin. }
      assert (Hupd : forall f, upd ((id, fe, b) :: res) f = if strEqb (bfName f) (brName b) then (if isUpd b then jobUpdate id b f else f) else upd res f).
      { intros f. unfold upd. cbn. destruct (strEqb (bfName f) (brName b)); reflexivity. }
      unfold jobResult, isUpd, isSkip in *. cbn [filter snd]. destruct (brResult b) eqn:Eb; rewrite IH by exact Hnd'; cbn [map].
      + f_equal. rewrite map_map. apply map_ext. intros f. rewrite Hupd. destruct (strEqb (bfName f) (brName b)) eqn:En; [|reflexivity].
        apply strEqb_eq in En. unfold upd. cbn [jobUpdate bfName]. rewrite (Hfind f En). reflexivity.
      + f_equal. apply map_ext. intros f. rewrite Hupd. destruct (strEqb (bfName f) (brName b)) eqn:En; [|reflexivity].
        apply strEqb_eq in En. unfold upd. rewrite (Hfind f En). reflexivity.
      + f_equal. rewrite map_map. apply map_ext. intros f. rewrite Hupd. destruct (strEqb (bfName f) (brName b)) eqn:En; [|reflexivity].
        apply strEqb_eq in En. unfold upd. cbn [jobUpdate bfName]. rewrite (Hfind f En). reflexivity.
      + f_equal. { apply map_ext. intros f. rewrite Hupd. destruct (strEqb (bfName f) (brName b)) eqn:En; [|reflexivity].
          apply strEqb_eq in En. unfold upd. rewrite (Hfind f En). reflexivity. }
        rewrite <- app_assoc. reflexivity.
      + f_equal. apply map_ext. intros f. rewrite Hupd. destruct (strEqb (bfName f) (brName b)) eqn:En; [|reflexivity].
        apply strEqb_eq in En. unfold upd. rewrite (Hfind f En). reflexivity.
  Qed.

  (** ** the paths of the jobs are different *)
  Lemma jobs_paths : forall m jobs, jobsOk m jobs -> noCollision cfg m -> NoDup (map bfName (mFiles m)) -> NoDup (map (jp m) jobs).
  Proof.
    intros m jobs (Hperm & Hids & Hone & _) Hcol Hnames.
    assert (Hin : forall id l fe, In (id, l) jobs -> In fe l -> In (fst fe) (mFiles m)).
    { intros id l fe Hj Hl. assert (H : In (fst fe) (filter bfCopy (mFiles m))).
      { eapply Permutation_in; [exact Hperm|]. apply in_map. apply in_concat. exists l. split; [|exact Hl]. apply (in_map snd) in Hj. exact Hj. }
      apply filter_In in H. tauto. }
    assert (Hnd : NoDup (map (fun fe => bfName (fst fe)) (concat (map snd jobs)))).
    { rewrite <- (map_map fst bfName). eapply Permutation_NoDup. { apply Permutation_sym. apply Permutation_map. exact Hperm. }
      clear - Hnames. induction (mFiles m) as [|f l IH]; [constructor|]. cbn in *. inversion Hnames; subst. destruct (bfCopy f); cbn; auto.
      constructor; auto. intros Hi. apply H1. apply in_map_iff in Hi. destruct Hi as (g & <- & Hg). apply in_map. apply filter_In in Hg. tauto. }
    clear Hperm Hnames.
    induction jobs as [|[id l] jobs IH]; [constructor|]. cbn [map]. constructor.
    - intros Hi. apply in_map_iff in Hi. destruct Hi as ([id' l'] & He & Hj'). unfold jp, jobPath in He. cbn [fst snd] in He.
      destruct (Z.eq_dec id 0) as [->|Hne].
      + pose proof (Hone 0 l (or_introl eq_refl) eq_refl) as H1. destruct l as [|[f env] [|]]; try discriminate.
        destruct (Z.eq_dec id' 0) as [->|Hne'].
        * pose proof (Hone 0 l' (or_intror Hj') eq_refl) as H1'. destruct l' as [|[f' env'] [|]]; try discriminate.
          unfold repoPath in He. cbn in He. injection He as He.
          assert (Hn : bfName f' = bfName f).
          { apply Hcol. { exact (Hin 0 _ _ (or_intror Hj') (or_introl eq_refl)). } { exact (Hin 0 _ _ (or_introl eq_refl) (or_introl eq_refl)). }
            unfold fileExt. exact He. }
          cbn in Hnd. inversion Hnd as [|? ? Hni _]; subst. apply Hni. rewrite <- Hn.
          apply (in_map (fun fe => bfName (fst fe))) with (x := (f', env')). apply in_concat. exists [(f', env')]. split; [|left; reflexivity].
          apply (in_map snd) in Hj'. exact Hj'.
        * unfold repoPath in He. destruct l' as [|[f' env'] l']; cbn in He; [discriminate|].
          apply Z.eqb_neq in Hne'. rewrite Hne' in He. discriminate.
      + assert (He' : exists lbl x, (match l' with (f, _) :: _ => repoPath lbl (bfName f) id' (mCompressExt m) (isBlock cfg f) | [] => RBundle lbl id' end) = RBundle x id).
        { exists (mLabel m), (mLabel m). rewrite He. destruct l as [|[f env] l]; [reflexivity|]. unfold repoPath. apply Z.eqb_neq in Hne. rewrite Hne. reflexivity. }
        destruct He' as (lbl & x & He').
        assert (id' = id) as ->.
        { destruct l' as [|[f' env'] l']; [congruence|]. unfold repoPath in He'. destruct (id' =? 0); congruence. }
        cbn in Hids. apply Z.eqb_neq in Hne. rewrite Hne in Hids. cbn in Hids. inversion Hids as [|? ? Hni _]; subst. apply Hni.
        apply filter_In. split; [|rewrite Hne; reflexivity]. apply (in_map fst) in Hj'. exact Hj'.
    - apply IH.
      + cbn in Hids. destruct (negb (id =? 0)); [inversion Hids; subst; assumption|exact Hids].
      + intros i l0 Hj. exact (Hone i l0 (or_intror Hj)).
      + intros i l0 fe Hj. exact (Hin i l0 fe (or_intror Hj)).
      + cbn in Hnd. rewrite map_app in Hnd. clear - Hnd. induction (map _ l) as [|x xs IHx]; [exact Hnd|]. inversion Hnd; auto.
  Qed.

  Lemma jp_label : forall m j, pathLabel (jp m j) = mLabel m.
  Proof.
    intros m [id l]. unfold jp, jobPath. cbn. destruct l as [|[f env] l]; [reflexivity|]. unfold repoPath. destruct (id =? 0); reflexivity.
  Qed.

  (** ** one backup *)
  (** the file in the finished manifest, from the file [f] before the jobs *)
  Definition final (m : manifest) (jobs : list job) (r : repo) (f f' : bfile) : Prop :=
    (f' = f /\ (bfCopy f = false \/
                bfReference f <> None /\ (exists env, inJob jobs f env /\ readSame sha1 env f) \/
                bfResume f = true /\ repoSame sha1 r (repoPath (mLabel m) (bfName f) 0 (mCompressExt m) (isBlock cfg f)) f)) \/
    (bfCopy f = true /\ exists id b env, f' = jobUpdate id b f /\ inJob jobs f env /\
      (brResult b = CopyTruncate /\ brCopySize b = 0 /\ brChecksum b = Some (sha1 []) /\ readCopy env f [] \/
       brResult b = CopyCopy /\ exists whole, r (repoPath (mLabel m) (bfName f) id (mCompressExt m) (isBlock cfg f)) = Some whole /\ copied sha1 cfg id f env whole b)).

  Lemma process_spec : forall m jobs r files r', backupProcess sha1 cfg m jobs r = Ok (files, r') ->
    jobsOk m jobs -> noCollision cfg m -> NoDup (map bfName (mFiles m)) ->
    (forall q, pathLabel q <> mLabel m -> r' q = r q) /\
    (forall f', In f' files -> exists f, In f (mFiles m) /\ final m jobs r' f f') /\
    NoDup (map bfName files) /\ (forall f', In f' files -> In (bfName f') (map bfName (mFiles m))) /\
    (forall f, In f (mFiles m) -> ~ In (bfName f) (map bfName files) -> bfCopy f = true /\
       exists env, inJob jobs f env /\ (reDelta env = None \/ reCopy env = None)).
  Proof.
    intros m jobs r files r' H Hjobs Hcol Hnames. unfold backupProcess in H.
    destruct (processJobs sha1 cfg m jobs r (mFiles m, [])) as [[[fs rm] r1]| |] eqn:E; cbn in H; try discriminate.
    injection H as <- <-.
    pose proof (jobs_paths _ _ Hjobs Hcol Hnames) as Hpaths.
    destruct Hjobs as (Hperm & Hids & Hone & Hresume).
    destruct (processJobs_spec _ _ _ _ _ _ E Hpaths) as (res & Hm & Hst & Hq & Hok).
    { intros id l Hj. destruct (Z.eq_dec id 0) as [->|Hne]. { right. eapply Hone; eauto. }
      left. intros [f env] Hf. cbn. destruct (bfResume f) eqn:R; [|reflexivity]. exfalso. apply Hne. eapply Hresume; eauto. }
    assert (Hbn : map (fun x : rec => brName (snd x)) res = map bfName (map fst (concat (map snd jobs)))).
    { rewrite <- Hm, !map_map. apply map_ext_in. intros [[id fe] b] Hx. rewrite Forall_forall in Hok. destruct (Hok _ Hx) as (fs0 & _ & _ & Hn & _).
      exact Hn. }
    assert (Hnd : NoDup (map (fun x : rec => brName (snd x)) res)).
    { rewrite Hbn. eapply Permutation_NoDup. { apply Permutation_sym. apply Permutation_map. exact Hperm. }
      clear - Hnames. induction (mFiles m) as [|f l IH]; [constructor|]. cbn in *. inversion Hnames; subst. destruct (bfCopy f); cbn; auto.
      constructor; auto. intros Hi. apply H1. apply in_map_iff in Hi. destruct Hi as (g & <- & Hg). apply in_map. apply filter_In in Hg. tauto. }
    rewrite fold_results in Hst by exact Hnd. injection Hst as -> ->. cbn [app].
    assert (Hun : forall f, bfName (upd res f) = bfName f).
    { intros f. unfold upd. destruct (find _ res) as [[[id fe] b]|]; [|reflexivity]. destruct (isUpd b); reflexivity. }
    assert (Huniq : forall f g, In f (mFiles m) -> In g (mFiles m) -> bfName f = bfName g -> f = g).
    { clear - Hnames. induction (mFiles m) as [|x l IH]; [easy|]. cbn in Hnames. inversion Hnames as [|? ? Hni Hn]; subst.
      intros f g [->|Hf] [->|Hg] He; auto.
      - exfalso. apply Hni. rewrite He. apply in_map. exact Hg.
      - exfalso. apply Hni. rewrite <- He. apply in_map. exact Hf. }
    assert (Hrec : forall f, In f (mFiles m) -> bfCopy f = true -> exists id env b, In (id, (f, env), b) res).
    { intros f Hf Hc. assert (Hi : In f (map fst (concat (map snd jobs)))).
      { eapply Permutation_in; [apply Permutation_sym; exact Hperm|]. apply filter_In. auto. }
      rewrite <- Hm in Hi. apply in_map_iff in Hi. destruct Hi as ([f0 env] & Hf0 & Hi). cbn in Hf0. subst f0.
      apply in_map_iff in Hi. destruct Hi as ([[id fe] b] & Hfe & Hi). cbn in Hfe. subst fe. eauto. }
    assert (Hback : forall id fe b, In (id, fe, b) res -> In (fst fe) (mFiles m) /\ bfCopy (fst fe) = true).
    { intros id fe b Hx. apply and_comm. assert (Hi : In (fst fe) (filter bfCopy (mFiles m))).
      { eapply Permutation_in; [exact Hperm|]. rewrite <- Hm. apply in_map. apply in_map_iff. exists (id, fe, b). auto. }
      apply filter_In in Hi. tauto. }
    assert (Hfind : forall id fe b, In (id, fe, b) res -> find (fun x : rec => strEqb (bfName (fst fe)) (brName (snd x))) res = Some (id, fe, b)).
    { intros id fe b Hx. rewrite Forall_forall in Hok. destruct (Hok _ Hx) as (fs0 & _ & _ & Hn & _).
      clear - Hx Hn Hnd. induction res as [|y l IH]; [easy|]. cbn. cbn in Hnd. inversion Hnd as [|? ? Hni Hnd']; subst.
      destruct Hx as [->|Hx].
      - cbn. rewrite Hn, strEqb_refl. reflexivity.
      - destruct (strEqb (bfName (fst fe)) (brName (snd y))) eqn:Ee; [|auto]. exfalso. apply strEqb_eq in Ee. apply Hni. rewrite <- Ee, <- Hn.
        apply in_map_iff. exists (id, fe, b). auto. }
    split. { intros q Hl. apply Hq. intros Hi. apply Hl. apply in_map_iff in Hi. destruct Hi as (j & <- & _). apply jp_label. }
    split.
    { intros f' Hf'. apply filter_In in Hf'. destruct Hf' as [Hf' Hnr]. apply in_map_iff in Hf'. destruct Hf' as (f & <- & Hf).
      exists f. split; [exact Hf|]. destruct (bfCopy f) eqn:Ec.
      - destruct (Hrec f Hf Ec) as (id & env & b & Hx). pose proof (Hfind _ _ _ Hx) as Hfi. cbn in Hfi.
        unfold upd. rewrite Hfi. rewrite Forall_forall in Hok. destruct (Hok _ Hx) as (fs0 & Hj & Hfe & Hn & Ho). cbn in Hn, Ho.
        assert (Hpath : jp m (id, fs0) = repoPath (mLabel m) (bfName f) id (mCompressExt m) (isBlock cfg f)).
        { unfold jp, jobPath. cbn. destruct (Z.eq_dec id 0) as [->|Hne].
          - pose proof (Hone 0 fs0 Hj eq_refl) as H1. destruct fs0 as [|fe0 [|]]; try discriminate. destruct Hfe as [->|[]]. reflexivity.
          - unfold repoPath. apply Z.eqb_neq in Hne. rewrite Hne. destruct fs0 as [|[f0 env0] fs0]; reflexivity. }
        assert (Hij : inJob jobs f env) by (exists id, fs0; auto).
        rewrite Hpath in Ho. unfold isUpd. destruct (brResult b) eqn:Eb.
        + right. split; [exact Ec|]. exists id, b, env. split; [reflexivity|]. split; [exact Hij|]. right. split; [exact Eb|exact Ho].
        + left. split; [reflexivity|]. right. right. destruct Ho as [Hr Hs]. assert (id = 0) as -> by (eapply Hresume; eauto). auto.
        + right. split; [exact Ec|]. exists id, b, env. split; [reflexivity|]. split; [exact Hij|]. left. tauto.
        + exfalso. apply negb_true_iff in Hnr. rewrite Hun in Hnr. apply Bool.not_true_iff_false in Hnr. apply Hnr. apply existsb_exists.
          exists (brName b). split; [|rewrite Hn; apply strEqb_refl]. apply in_map_iff. exists (id, (f, env), b). split; [reflexivity|].
          apply filter_In. split; [exact Hx|]. unfold isSkip. cbn. rewrite Eb. reflexivity.
        + left. split; [reflexivity|]. right. left. split; [tauto|]. exists env. tauto.
      - left. split; [|left; exact Ec]. unfold upd. destruct (find _ res) as [[[id fe] b]|] eqn:Ef; [|reflexivity]. exfalso.
        apply find_some in Ef. destruct Ef as [Hx Hn]. cbn in Hn. apply strEqb_eq in Hn. destruct (Hback _ _ _ Hx) as [Hi Hc].
        rewrite Forall_forall in Hok. destruct (Hok _ Hx) as (fs0 & _ & _ & Hn' & _). rewrite (Huniq f (fst fe) Hf Hi) in Ec by congruence. congruence. }
    assert (Hmapn : map bfName (map (upd res) (mFiles m)) = map bfName (mFiles m)). { rewrite map_map. apply map_ext. exact Hun. }
    split.
    { set (l0 := map (upd res) (mFiles m)) in *. set (g := fun f => negb (existsb _ _)). rewrite <- Hmapn in Hnames. clear - Hnames.
      induction l0 as [|f l IH]; [constructor|]. cbn in *. inversion Hnames as [|? ? Hni Hn]; subst. destruct (g f); cbn; auto. constructor; auto.
      intros Hi. apply Hni. apply in_map_iff in Hi. destruct Hi as (h & <- & Hh). apply in_map. apply filter_In in Hh. tauto. }
    split.
    { intros f' Hf'. apply filter_In in Hf'. destruct Hf' as [Hf' _]. rewrite <- Hmapn. apply in_map. exact Hf'. }
    intros f Hf Hn.
    destruct (existsb (strEqb (bfName (upd res f))) (map (fun x : rec => brName (snd x)) (filter (fun x => isSkip (snd x)) res))) eqn:Ex.
    - apply existsb_exists in Ex. destruct Ex as (nm & Hnm & Hex). apply strEqb_eq in Hex. rewrite Hun in Hex. subst nm.
      apply in_map_iff in Hnm. destruct Hnm as ([[id [f0 env]] b] & Hnb & Hx). apply filter_In in Hx. destruct Hx as [Hx Hs]. cbn in Hnb, Hs.
      destruct (Hback _ _ _ Hx) as [Hi Hc]. cbn in Hi, Hc.
      rewrite Forall_forall in Hok. destruct (Hok _ Hx) as (fs0 & Hj & Hfe & Hn' & Ho). cbn in Hn', Ho.
      assert (f0 = f) as -> by (apply Huniq; auto; congruence). split; [exact Hc|]. exists env. split; [exists id, fs0; auto|].
      unfold isSkip in Hs. destruct (brResult b); try discriminate. exact Ho.
    - exfalso. apply Hn. apply in_map_iff. exists (upd res f). split; [apply Hun|]. apply filter_In. split. { apply in_map. exact Hf. }
      rewrite Ex. reflexivity.
  Qed.
End Run.
