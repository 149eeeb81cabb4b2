(** Proofs about resuming a backup. *)
From Verif Require Import Base Str IncrModel IncrSpec ResumeModel ResumeSpec IncrProof3.
Open Scope Z_scope.

Lemma node_ind2 : forall (P : node -> Prop), (forall s, P (NFile s)) -> (forall s l, Forall P l -> P (NPath s l)) -> (forall s, P (NLink s)) -> (forall s, P (NSpecial s)) -> forall n, P n.
Proof.
  intros P H1 H2 H3 H4. fix IH 1. intros [s|s l|s|s]; [apply H1| |apply H3|apply H4]. apply H2. induction l as [|x l IHl]; constructor; [apply IH|apply IHl].
Qed.

Lemma endsWith_strip : forall s e, strEndsWith s e = true -> s = stripEnd s e ++ e.
Proof.
  intros s e H. apply andb_prop in H. destruct H as [_ H]. apply strEqb_eq in H. unfold stripEnd.
  transitivity (firstn (length s - length e) s ++ skipn (length s - length e) s); [symmetry; apply firstn_skipn|]. rewrite H. reflexivity.
Qed.
Lemma endsWith_app : forall s e, strEndsWith (s ++ e) e = true.
Proof.
  intros s e. unfold strEndsWith. rewrite app_length. replace (length s + length e - length e)%nat with (length s) by lia.
  rewrite skipn_app, skipn_all, Nat.sub_diag. cbn. rewrite strEqb_refl. rewrite andb_true_r. apply Nat.leb_le. lia.
Qed.
Lemma stripEnd_app : forall s e, stripEnd (s ++ e) e = s.
Proof.
  intros s e. unfold stripEnd. rewrite app_length. replace (length s + length e - length e)%nat with (length s) by lia.
  rewrite firstn_app, firstn_all, Nat.sub_diag, firstn_O. apply app_nil_r.
Qed.
Lemma extOf_spec : forall s, compressExtOf s = [] /\ (forall e, In e compressExts -> strEndsWith s e = false) \/ In (compressExtOf s) compressExts /\ strEndsWith s (compressExtOf s) = true.
Proof.
  intros s. unfold compressExtOf. destruct (find (strEndsWith s) compressExts) as [e|] eqn:E.
  - right. apply find_some in E. exact E.
  - left. split; [reflexivity|]. intros e He. exact (find_none _ _ E e He).
Qed.
Lemma exts_nonempty : forall e, In e compressExts -> e <> [].
Proof. intros e H ->. cbn in H. intuition discriminate. Qed.

Section Resume.
  Variable paths : list str.
  Variable rfiles : list bfile.
  Variable ext : str.
  Variable delta : bool.

  Lemma resumeName_stored : forall full name, resumeName ext full = Some name -> storedName ext name full.
  Proof.
    intros full name H. unfold resumeName in H. pose proof (extOf_spec full) as HX. set (e := compressExtOf full) in *. clearbody e.
    set (nm := if strEqb e [] then full else stripEnd full e) in *.
    assert (Hf : full = nm ++ e).
    { unfold nm. destruct HX as [[He _]|[He1 He2]].
      - rewrite He. cbn. symmetry. apply app_nil_r.
      - destruct (strEqb e []) eqn:E. { apply strEqb_eq in E. rewrite E in He1. elim (exts_nonempty _ He1 eq_refl). }
        apply endsWith_strip. exact He2. }
    clearbody nm.
    destruct (strEndsWith nm pgbi) eqn:Eb.
    - rewrite andb_false_r in H. injection H as <-. pose proof (endsWith_strip _ _ Eb) as Hn.
      destruct HX as [[He _]|[He1 He2]].
      + right. left. rewrite Hf, He, app_nil_r. exact Hn.
      + right. right. exists e. split; [exact He1|]. rewrite Hf at 1. rewrite Hn at 1. rewrite <- app_assoc. reflexivity.
    - rewrite andb_true_r in H. destruct (negb (strEqb e ext)) eqn:Ee; [discriminate|]. injection H as <-.
      apply negb_false_iff, strEqb_eq in Ee. left. rewrite Hf at 1. rewrite Ee. reflexivity.
  Qed.

  Variable files0 : list bfile.

  Definition upd (S0 : list str) (f : bfile) : bfile :=
    if existsb (strEqb (bfName f)) S0 then match resumable rfiles delta files0 (bfName f) with Some q => resumeFrom delta q f | None => f end else f.

  Lemma upd_fields : forall S0 f, bfName (upd S0 f) = bfName f /\ bfSize (upd S0 f) = bfSize f /\ bfTimestamp (upd S0 f) = bfTimestamp f.
  Proof. intros S0 f. unfold upd. destruct (existsb _ S0); auto. destruct (resumable _ _ _ _); auto. Qed.
  Lemma fileFind_map : forall (g : bfile -> bfile) name files, (forall f, bfName (g f) = bfName f) -> fileFind name (map g files) = option_map g (fileFind name files).
  Proof.
    intros g name files Hg. unfold fileFind. induction files as [|f files IH]; [reflexivity|]. cbn. rewrite Hg. destruct (strEqb (bfName f) name); [reflexivity|exact IH].
  Qed.
  Lemma resumable_upd : forall S0 name, resumable rfiles delta (map (upd S0) files0) name = resumable rfiles delta files0 name.
  Proof.
    intros S0 name. unfold resumable. rewrite fileFind_map by (intros; apply upd_fields). destruct (fileFind name files0) as [f|]; [|reflexivity]. cbn.
    destruct (upd_fields S0 f) as (_ & -> & ->). reflexivity.
  Qed.
  Lemma resumeFrom_twice : forall q f, resumeFrom delta q (resumeFrom delta q f) = resumeFrom delta q f.
  Proof. reflexivity. Qed.

  Definition keep (full : str) : bool := match resumeName ext full with Some n => match resumable rfiles delta files0 n with Some _ => true | None => false end | None => false end.
  Definition names (l : list str) : list str := flat_map (fun x => match resumeName ext x with Some n => [n] | None => [] end) l.

  Lemma cleanFile_spec : forall S0 full, cleanFile rfiles ext delta (map (upd S0) files0) full = (map (upd (S0 ++ names [full])) files0, keep full).
  Proof.
    intros S0 full. unfold cleanFile, keep, names. cbn. destruct (resumeName ext full) as [n|]; cbn; [|rewrite app_nil_r; reflexivity].
    rewrite resumable_upd.
    assert (Hu : forall f, upd (S0 ++ [n]) f = if strEqb (bfName f) n then match resumable rfiles delta files0 n with Some q => resumeFrom delta q f | None => f end else upd S0 f).
    { intros f. unfold upd. rewrite existsb_app. cbn. rewrite orb_false_r. destruct (strEqb (bfName f) n) eqn:E.
      - rewrite orb_true_r. apply strEqb_eq in E. rewrite E. reflexivity.
      - rewrite orb_false_r. reflexivity. }
    destruct (resumable rfiles delta files0 n) as [q|] eqn:Eq; f_equal.
    - rewrite map_map. apply map_ext. intros f. rewrite Hu. destruct (upd_fields S0 f) as (-> & _). destruct (strEqb (bfName f) n) eqn:E; [|reflexivity].
      apply strEqb_eq in E. unfold upd. rewrite E, Eq. destruct (existsb _ S0); reflexivity.
    - apply map_ext. intros f. rewrite Hu. destruct (strEqb (bfName f) n) eqn:E; [|reflexivity]. apply strEqb_eq in E. unfold upd. rewrite E, Eq.
      destruct (existsb _ S0); reflexivity.
  Qed.

  (** the files under the paths of the manifest in the order of the walk *)
  Fixpoint reach (parent : option str) (n : node) : list str :=
    if (match parent with None => true | Some _ => false end) && strEqb (nodeName n) manifestCopy then []
    else
    match n with
    | NPath name sub => if existsb (strEqb (fullName parent name)) paths then flat_map (reach (Some (fullName parent name))) sub else []
    | NFile name => [fullName parent name]
    | _ => []
    end.

  Lemma names_app : forall a b, names (a ++ b) = names a ++ names b.
  Proof. intros. unfold names. apply flat_map_app. Qed.

  (** ** what is left *)
  Definition leftOk (parent : option str) (l l' : list node) : Prop := forall x, anywhere parent l' x <-> In x (flat_map (reach parent) l) /\ keep x = true.

  Lemma anywhere_app : forall parent a b x, anywhere parent (a ++ b) x <-> anywhere parent a x \/ anywhere parent b x.
  Proof.
    intros parent a b x. split.
    - intros H. inversion H; subst.
      + apply in_app_or in H0. destruct H0 as [H0|H0]; [left|right]; apply aw_here; auto.
      + apply in_app_or in H0. destruct H0 as [H0|H0]; [left|right]; eapply aw_path; eauto.
    - intros [H|H]; inversion H; subst; try (apply aw_here; auto; apply in_or_app; auto); eapply aw_path; eauto; apply in_or_app; auto.
  Qed.
  Lemma anywhere_nil : forall parent x, ~ anywhere parent [] x.
  Proof. intros parent x H. inversion H; contradiction. Qed.

  Lemma existsb_paths : forall x, existsb (strEqb x) paths = true <-> In x paths.
  Proof.
    intros x. rewrite existsb_exists. split.
    - intros (y & Hy & E). apply strEqb_eq in E. subst. exact Hy.
    - intros H. exists x. split; [exact H|apply strEqb_refl].
  Qed.

  Lemma cleanNode_path : forall parent s l files,
    cleanNode paths rfiles ext delta parent (NPath s l) files =
    if (match parent with None => true | Some _ => false end) && strEqb s manifestCopy then (files, [NPath s l])
    else if existsb (strEqb (fullName parent s)) paths then
      let (files, sub) := cleanNodes paths rfiles ext delta (Some (fullName parent s)) l files in (files, [NPath s sub])
    else (files, []).
  Proof.
    intros parent s l files. cbn [cleanNode nodeName]. destruct (_ && _); [reflexivity|]. destruct (existsb _ paths); [|reflexivity].
    set (full := fullName parent s).
    match goal with |- context [?g l files] => match g with cleanNodes _ _ _ _ _ => fail 1 | _ => assert (Hgo : forall fs, g l fs = cleanNodes paths rfiles ext delta (Some full) l fs) end end.
    { induction l as [|x l IH]; intros fs; [reflexivity|]. cbn. destruct (cleanNode paths rfiles ext delta (Some full) x fs) as [f1 k1]. rewrite IH. reflexivity. }
    rewrite Hgo. reflexivity.
  Qed.

  Lemma cleanNode_spec : forall n parent S0,
    exists k, cleanNode paths rfiles ext delta parent n (map (upd S0) files0) = (map (upd (S0 ++ names (reach parent n))) files0, k) /\ leftOk parent [n] k.
  Proof.
    intros n. induction n as [s|s l HF|s|s] using node_ind2; intros parent S0.
    1, 3, 4: cbn [cleanNode reach nodeName].
    1, 2, 3: set (top := (match parent with None => true | Some _ => false end) && strEqb s manifestCopy); destruct top eqn:Et; unfold top in *.
    - eexists. split. { cbn. rewrite app_nil_r. reflexivity. }
      intros x. split.
      + intros H. inversion H; subst; destruct H0 as [E0|[]]; [|discriminate]. subst n. destruct parent; [discriminate|]. apply strEqb_eq in Et. elim (H2 eq_refl Et).
      + cbn. rewrite Et. cbn. tauto.
    - rewrite cleanFile_spec. eexists. split; [reflexivity|]. intros x. cbn [flat_map reach nodeName]. rewrite Et, app_nil_r.
      assert (Hm : parent = None -> s <> manifestCopy). { intros -> E. cbn in Et. rewrite E in Et. discriminate. }
      destruct (keep (fullName parent s)) eqn:Ek.
      + split.
        * intros H. inversion H; subst; destruct H0 as [E0|[]]; [|discriminate]. subst n. cbn. auto.
        * intros [[<-|[]] _]. apply (aw_here parent [NFile s] (NFile s)); [left; reflexivity|discriminate|exact Hm].
      + split; [intros H; elim (anywhere_nil _ _ H)|]. intros [[<-|[]] H]. congruence.
    - eexists. split. { cbn. rewrite app_nil_r. reflexivity. }
      intros x. split.
      + intros H. inversion H; subst; destruct H0 as [E0|[]]; [|discriminate]. subst n. destruct parent; [discriminate|]. apply strEqb_eq in Et. elim (H2 eq_refl Et).
      + cbn. rewrite Et. cbn. tauto.
    - eexists. split. { cbn. rewrite app_nil_r. reflexivity. }
      intros x. cbn. rewrite Et. split; [intros H; elim (anywhere_nil _ _ H)|cbn; tauto].
    - eexists. split. { cbn. rewrite app_nil_r. reflexivity. }
      intros x. split.
      + intros H. inversion H; subst; destruct H0 as [E0|[]]; [|discriminate]. subst n. destruct parent; [discriminate|]. apply strEqb_eq in Et. elim (H2 eq_refl Et).
      + cbn. rewrite Et. cbn. tauto.
    - eexists. split. { cbn. rewrite app_nil_r. reflexivity. }
      intros x. cbn. rewrite Et. split; [intros H; elim (anywhere_nil _ _ H)|cbn; tauto].
    - rewrite cleanNode_path. cbn [reach nodeName].
      set (top := (match parent with None => true | Some _ => false end) && strEqb s manifestCopy). destruct top eqn:Et; unfold top in *.
      { eexists. split. { cbn. rewrite app_nil_r. reflexivity. }
        intros x. split.
        - intros H. inversion H; subst; destruct H0 as [E|[]].
          + subst n. elim (H1 s l eq_refl).
          + injection E as -> ->. destruct parent; [discriminate|]. apply strEqb_eq in Et. elim (H1 eq_refl Et).
        - cbn. rewrite Et. cbn. tauto. }
      destruct (existsb (strEqb (fullName parent s)) paths) eqn:Ep.
      + set (full := fullName parent s) in *.
        assert (Hgo : forall S1, exists k, cleanNodes paths rfiles ext delta (Some full) l (map (upd S1) files0) = (map (upd (S1 ++ names (flat_map (reach (Some full)) l))) files0, k) /\ leftOk (Some full) l k).
        { clear - HF. induction HF as [|x l Hx HF IH]; intros S1.
          - exists []. cbn. rewrite app_nil_r. split; [reflexivity|]. intros x. cbn. split; [intros H; elim (anywhere_nil _ _ H)|tauto].
          - destruct (Hx (Some full) S1) as (k1 & E1 & L1). destruct (IH (S1 ++ names (reach (Some full) x))) as (k2 & E2 & L2).
            exists (k1 ++ k2). cbn. rewrite E1. rewrite E2. split; [rewrite names_app, app_assoc; reflexivity|].
            intros y. rewrite anywhere_app, (L1 y), (L2 y). cbn. rewrite app_nil_r, in_app_iff. tauto. }
        destruct (Hgo S0) as (k & Ek & Lk). rewrite Ek. eexists. split; [reflexivity|].
        intros x. cbn [flat_map reach nodeName]. rewrite Et, app_nil_r. fold full. rewrite Ep. rewrite <- (Lk x).
        assert (Hm : parent = None -> s <> manifestCopy). { intros -> E. cbn in Et. rewrite E in Et. discriminate. }
        split.
        * intros H. inversion H; subst; destruct H0 as [E|[]].
          -- subst n. elim (H1 s k eq_refl).
          -- injection E as -> ->. exact H2.
        * intros H. eapply aw_path; [left; reflexivity|exact Hm|exact H].
      + eexists. split. { cbn. rewrite app_nil_r. reflexivity. }
        intros x. cbn. rewrite Et, Ep. cbn. split; [intros H; elim (anywhere_nil _ _ H)|tauto].
  Qed.

  Lemma cleanNodes_spec : forall l parent S0,
    exists k, cleanNodes paths rfiles ext delta parent l (map (upd S0) files0) = (map (upd (S0 ++ names (flat_map (reach parent) l))) files0, k) /\ leftOk parent l k.
  Proof.
    intros l parent. induction l as [|x l IH]; intros S0.
    - exists []. cbn. rewrite app_nil_r. split; [reflexivity|]. intros x. cbn. split; [intros H; elim (anywhere_nil _ _ H)|tauto].
    - destruct (cleanNode_spec x parent S0) as (k1 & E1 & L1). destruct (IH (S0 ++ names (reach parent x))) as (k2 & E2 & L2).
      exists (k1 ++ k2). cbn. rewrite E1, E2. split; [rewrite names_app, app_assoc; reflexivity|].
      intros y. rewrite anywhere_app, (L1 y), (L2 y). cbn. rewrite app_nil_r, in_app_iff. tauto.
  Qed.

  (** ** what is reached *)
  Lemma reach_inTree : forall n parent x, In x (reach parent n) <-> inTree paths parent [n] x.
  Proof.
    intros n. induction n as [s|s l HF|s|s] using node_ind2; intros parent x; cbn [reach nodeName].
    all: destruct ((match parent with None => true | Some _ => false end) && strEqb s manifestCopy) eqn:Et.
    all: try (split; [intros []|intros H; inversion H; subst; destruct H0 as [E|[]]; try discriminate; try (injection E as <-); try (injection E as <- <-);
      destruct parent; [discriminate|]; apply strEqb_eq in Et; elim (H1 eq_refl Et)]; fail).
    - assert (Hm : parent = None -> s <> manifestCopy). { intros -> E. cbn in Et. rewrite E in Et. discriminate. }
      split.
      + intros [<-|[]]. apply it_file; [left; reflexivity|exact Hm].
      + intros H. inversion H; subst; destruct H0 as [E|[]]; [|discriminate]. injection E as <-. left. reflexivity.
    - assert (Hm : parent = None -> s <> manifestCopy). { intros -> E. cbn in Et. rewrite E in Et. discriminate. }
      destruct (existsb (strEqb (fullName parent s)) paths) eqn:Ep.
      + apply existsb_paths in Ep. rewrite Forall_forall in HF. rewrite in_flat_map. split.
        * intros (y & Hy & Hx). apply (HF y Hy) in Hx. eapply it_path; [left; reflexivity|exact Hm|exact Ep|].
          inversion Hx; subst; destruct H as [E|[]]; subst y; [eapply it_file|eapply it_path]; eauto.
        * intros H. inversion H; subst; destruct H0 as [E|[]]; [discriminate|]. injection E as <- <-.
          inversion H3; subst.
          -- exists (NFile name). split; [exact H0|]. apply (HF _ H0). apply it_file; [left; reflexivity|auto].
          -- exists (NPath name sub). split; [exact H0|]. apply (HF _ H0). eapply it_path; [left; reflexivity|auto|eassumption|eassumption].
      + split; [intros []|]. intros H. inversion H; subst; destruct H0 as [E|[]]; [discriminate|]. injection E as <- <-.
        apply existsb_paths in H2. congruence.
    - split; [intros []|]. intros H. inversion H; subst; destruct H0 as [E|[]]; discriminate.
    - split; [intros []|]. intros H. inversion H; subst; destruct H0 as [E|[]]; discriminate.
    - split; [intros []|]. intros H. inversion H; subst; destruct H0 as [E|[]]; discriminate.
    - split; [intros []|]. intros H. inversion H; subst; destruct H0 as [E|[]]; discriminate.
  Qed.
  Lemma reach_list : forall l parent x, In x (flat_map (reach parent) l) <-> inTree paths parent l x.
  Proof.
    intros l parent x. rewrite in_flat_map. split.
    - intros (n & Hn & Hx). apply reach_inTree in Hx. inversion Hx; subst; destruct H as [E|[]]; subst n; [eapply it_file|eapply it_path]; eauto.
    - intros H. inversion H; subst.
      + exists (NFile name). split; [exact H0|]. apply reach_inTree. apply it_file; [left; reflexivity|auto].
      + exists (NPath name sub). split; [exact H0|]. apply reach_inTree. eapply it_path; [left; reflexivity|auto|eassumption|eassumption].
  Qed.

  Lemma resumable_spec : forall name q, resumable rfiles delta files0 name = Some q -> NoDup (map bfName files0) ->
    In q rfiles /\ forall f, In f files0 -> bfName f = name -> mayResume delta f q.
  Proof.
    intros name q H Hnd. unfold resumable in H. destruct (fileFind name files0) as [f0|] eqn:Ef; [|discriminate].
    destruct (fileFind name rfiles) as [q0|] eqn:Eq; [|discriminate]. apply fileFind_some in Ef, Eq. destruct Ef as [Hf Hfn], Eq as [Hq Hqn].
    destruct (bfChecksum q0) eqn:Ec; [|discriminate].
    destruct (bfSize f0 =? bfSize q0) eqn:Es; cbn in H; [|discriminate]. apply Z.eqb_eq in Es.
    destruct (negb delta && negb (bfTimestamp f0 =? bfTimestamp q0)) eqn:Et; [discriminate|].
    destruct (bfSize f0 =? 0) eqn:Ez; [discriminate|]. apply Z.eqb_neq in Ez. injection H as <-. split; [exact Hq|].
    intros f Hff Hfn2. assert (f = f0) as ->.
    { clear - Hnd Hff Hf Hfn Hfn2. rewrite <- Hfn in Hfn2. clear Hfn. induction files0 as [|y l IH]; [easy|]. cbn in Hnd. inversion Hnd as [|? ? Hni Hnd']; subst.
      destruct Hff as [->|Hff], Hf as [->|Hf]; auto.
      - exfalso. apply Hni. rewrite Hfn2. apply in_map. exact Hf.
      - exfalso. apply Hni. rewrite <- Hfn2. apply in_map. exact Hff. }
    repeat split; auto; try congruence. destruct delta; [left; reflexivity|right]. cbn in Et. apply negb_false_iff, Z.eqb_eq in Et. exact Et.
  Qed.
  Lemma resumable_complete : forall f q, In f files0 -> In q rfiles -> NoDup (map bfName files0) -> NoDup (map bfName rfiles) -> mayResume delta f q ->
    resumable rfiles delta files0 (bfName f) = Some q.
  Proof.
    intros f q Hf Hq Hnd Hnr (H1 & H2 & H3 & H4 & H5).
    assert (Hfind : forall l x, In x l -> NoDup (map bfName l) -> fileFind (bfName x) l = Some x).
    { clear. intros l x Hx Hnd. unfold fileFind. induction l as [|y l IH]; [easy|]. cbn in *. inversion Hnd as [|? ? Hni Hnd']; subst. destruct Hx as [->|Hx].
      - rewrite strEqb_refl. reflexivity.
      - destruct (strEqb (bfName y) (bfName x)) eqn:E; [|auto]. exfalso. apply strEqb_eq in E. apply Hni. rewrite E. apply in_map. exact Hx. }
    unfold resumable. rewrite (Hfind _ _ Hf Hnd). rewrite <- H1, (Hfind _ _ Hq Hnr). destruct (bfChecksum q); [|congruence].
    apply Z.eqb_neq in H3. rewrite <- H2 in *. rewrite Z.eqb_refl, H3. cbn.
    destruct H5 as [->|H5]; [reflexivity|]. apply Z.eqb_eq in H5. rewrite H5, andb_false_r. reflexivity.
  Qed.

  (** ** the whole *)
  Lemma clean_spec : forall tree files' tree', NoDup (map bfName files0) ->
    cleanNodes paths rfiles ext delta None tree files0 = (files', tree') ->
    Forall2 (fun f g =>
      (exists x q, inTree paths None tree x /\ resumeName ext x = Some (bfName f) /\ keep x = true /\ In q rfiles /\ mayResume delta f q /\ resumedAs delta f q g) \/
      (g = f /\ forall x, inTree paths None tree x -> resumeName ext x = Some (bfName f) -> keep x = false)) files0 files' /\
    (forall x, anywhere None tree' x <-> inTree paths None tree x /\ keep x = true).
  Proof.
    intros tree files' tree' Hnd H. destruct (cleanNodes_spec tree None []) as (k & E & L).
    assert (Hid : map (upd []) files0 = files0) by (apply map_id). rewrite Hid, H in E. injection E as -> ->. cbn [app]. split.
    - set (S0 := names (flat_map (reach None) tree)).
      assert (HS : forall nm, existsb (strEqb nm) S0 = true <-> exists x, inTree paths None tree x /\ resumeName ext x = Some nm).
      { intros nm. rewrite existsb_exists. split.
        - intros (y & Hy & Ey). apply strEqb_eq in Ey. subst y. unfold S0, names in Hy. apply in_flat_map in Hy. destruct Hy as (x & Hx & Hn).
          exists x. split; [apply reach_list; exact Hx|]. destruct (resumeName ext x); [|easy]. destruct Hn as [<-|[]]. reflexivity.
        - intros (x & Hx & Hn). exists nm. split; [|apply strEqb_refl]. unfold S0, names. apply in_flat_map. exists x. split; [apply reach_list; exact Hx|].
          rewrite Hn. left. reflexivity. }
      assert (HF : Forall (fun f => (exists x q, inTree paths None tree x /\ resumeName ext x = Some (bfName f) /\ keep x = true /\ In q rfiles /\ mayResume delta f q /\ resumedAs delta f q (upd S0 f)) \/
        (upd S0 f = f /\ forall x, inTree paths None tree x -> resumeName ext x = Some (bfName f) -> keep x = false)) files0).
      { apply Forall_forall. intros f Hf. unfold upd. destruct (existsb (strEqb (bfName f)) S0) eqn:Ex.
        - apply HS in Ex. destruct Ex as (x & Hx & Hn). destruct (resumable rfiles delta files0 (bfName f)) as [q|] eqn:Eq.
          + left. destruct (resumable_spec _ _ Eq Hnd) as [Hq Hm]. exists x, q. split; [exact Hx|]. split; [exact Hn|]. split; [unfold keep; rewrite Hn, Eq; reflexivity|]. split; [exact Hq|]. split; [exact (Hm f Hf eq_refl)|]. repeat split; reflexivity.
          + right. split; [reflexivity|]. intros y _ Hy. unfold keep. rewrite Hy, Eq. reflexivity.
        - right. split; [reflexivity|]. intros x Hx Hn. exfalso. apply Bool.not_true_iff_false in Ex. apply Ex. apply HS. eauto. }
      clear - HF. induction HF; constructor; auto.
    - intros x. rewrite (L x), reach_list. reflexivity.
  Qed.
End Resume.
