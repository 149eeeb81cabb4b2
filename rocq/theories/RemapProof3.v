(** Links *)
From Verif Require Import Base Str NumModel ManifestPackModel ManifestModel LinkCheckModel CleanModel RemapModel RemapSpec RemapProof RemapProof2.
From Coq Require Import Sorted.
Open Scope Z_scope.

Definition valOf (o : ropts) (x : str) : str := match kvGet (roLink o) x with Some p => p | None => [] end.
Definition setFile (p : str) (t : mtarget) : mtarget :=
  match mtFile t with None => setTarget p None t | Some _ => setTarget (strPath p) (Some (strBase p)) t end.
Definition kT (o : ropts) (x : str) (u : mtarget) : mtarget := updBy mtName (slashed pgData x) (setFile (valOf o x)) u.
Definition kL (o : ropts) (x : str) (k : mlink) : mlink := updBy mlName (slashed pgData x) (setLink (valOf o x)) k.
Definition hasT (ts : list mtarget) (x : str) : bool := isSome (find (fun t => strEqb (mtName t) (slashed pgData x)) ts).
Definition newT (o : ropts) (m : cman) (x : str) : mtarget :=
  setFile (valOf o x) (mkMtarget (slashed pgData x) false (valOf o x) (if isSome (findPath (cmFiles m) (slashed pgData x)) then Some [46] else None) 0 None).
Definition newL (o : ropts) (m : cman) (x : str) : mlink :=
  mkMlink (slashed pgData x) (valOf o x) (match findPath (cmPaths m) pgData with Some b => mpUser b | None => None end)
    (match findPath (cmPaths m) pgData with Some b => mpGroup b | None => None end).
Lemma setFile_name p t : mtName (setFile p t) = mtName t.
Proof. unfold setFile. destruct (mtFile t); reflexivity. Qed.
Lemma kT_name o x u : mtName (kT o x u) = mtName u.
Proof. apply updBy_key. intros. apply setFile_name. Qed.
Lemma kL_name o x k : mlName (kL o x k) = mlName k.
Proof. now apply updBy_key. Qed.
Lemma findPath_named l n : isSome (findPath l n) = true <-> named l n.
Proof.
  unfold findPath, named. pose proof (find_key mpName n l) as H. destruct (find _ l) as [p|]; cbn [isSome].
  - split; [|reflexivity]. intros _. now exists p.
  - split; [discriminate|]. intros (p & H1 & <-). exfalso. apply H. now apply in_map.
Qed.
Lemma findPath_false l n : isSome (findPath l n) = false <-> ~ named l n.
Proof. rewrite <- findPath_named. destruct (isSome _); split; congruence. Qed.
Lemma hasT_iff m x : hasT (cmTargets m) x = true <-> isTarget m x.
Proof.
  unfold hasT, isTarget. pose proof (find_key mtName (slashed pgData x) (cmTargets m)) as H. destruct (find _ _) as [t|]; cbn [isSome].
  - split; [|reflexivity]. intros _. now exists t.
  - split; [discriminate|]. intros (t & H1 & E). exfalso. apply H. change (slashed pgData x) with (under pgData x). rewrite <- E. now apply in_map.
Qed.
Lemma hasT_false m x : hasT (cmTargets m) x = false <-> ~ isTarget m x.
Proof. rewrite <- hasT_iff. destruct (hasT _ x); split; congruence. Qed.
Lemma slashed_inj a x y : slashed a x = slashed a y -> x = y.
Proof. unfold slashed. intros H. apply app_inv_head in H. now injection H. Qed.

(** A path without / has no directory *)
Lemma dropBase_in s : In 47 s -> exists a b, s = a ++ 47 :: b /\ dropBase s = 47 :: b /\ ~ In 47 a.
Proof.
  induction s as [|c s IH]; [intros []|]. intros H. cbn [dropBase]. destruct (Z.eqb_spec c 47) as [->|Hc].
  - exists [], s. auto.
  - destruct H as [H|H]; [congruence|]. destruct (IH H) as (a & b & -> & E & Ha). exists (c :: a), b. repeat split; [exact E|].
    intros [H'|H']; [congruence|tauto].
Qed.
Lemma dropBase_no s : ~ In 47 s -> dropBase s = [].
Proof. induction s as [|c s IH]; [reflexivity|]. cbn [dropBase In]. intros H. destruct (Z.eqb_spec c 47); [tauto|]. apply IH. tauto. Qed.
Lemma path_split p : match strPath p with [] => noSlashIn p | _ => fileIn p (strPath p) (strBase p) end.
Proof.
  unfold strPath, strBase, upToSlash. destruct (in_dec Z.eq_dec 47 p) as [H|H].
  - apply in_rev in H. destruct (dropBase_in _ H) as (a & b & E & -> & Ha). cbn [rev].
    assert (Ep : p = rev b ++ 47 :: rev a).
    { rewrite <- (rev_involutive p), E, rev_app_distr. cbn [rev]. rewrite <- app_assoc. reflexivity. }
    assert (Eb : skipn (length (rev b ++ [47])) p = rev a).
    { rewrite Ep, <- (app_assoc (rev b) [47] (rev a)) || rewrite Ep.
      replace (rev b ++ 47 :: rev a) with ((rev b ++ [47]) ++ rev a) by (rewrite <- app_assoc; reflexivity).
      rewrite skipn_app, skipn_all, Nat.sub_diag. reflexivity. }
    rewrite Eb. assert (Na : noSlashIn (rev a)) by (unfold noSlashIn; rewrite <- in_rev; exact Ha).
    destruct (rev b) as [|c r] eqn:Er.
    + cbn. repeat split; [exact Na|discriminate|]. right. cbn in Ep. auto.
    + rewrite app_length. cbn [length]. replace (S (length r) + 1 <=? 1)%nat with false by (symmetry; apply Nat.leb_gt; lia).
      rewrite removelast_last. repeat split; [exact Na|discriminate|]. left. exact Ep.
  - rewrite dropBase_no by (rewrite <- in_rev; exact H). cbn. exact H.
Qed.
Lemma length_nil {A} (l : list A) : (length l =? 0)%nat = true <-> l = [].
Proof. destruct l; cbn; split; congruence. Qed.

Record linkInv (m : cman) : Prop := {
  liNames : NoDup (map mtName (cmTargets m));
  liLinkNames : NoDup (map mlName (cmLinks m));
  liBasePath : named (cmPaths m) pgData;
  liPathFile : forall n, named (cmPaths m) n -> named (cmFiles m) n -> False;
  liTarget : forall t x, In t (cmTargets m) -> mtName t = under pgData x -> mtIsPath t = false /\ mtTablespaceId t = 0 /\ In (mtName t) (map mlName (cmLinks m));
  liNew : forall x, ~ isTarget m x -> named (cmPaths m) (under pgData x) \/ named (cmFiles m) (under pgData x) -> ~ In (under pgData x) (map mlName (cmLinks m))
}.
Definition badAt (m : cman) (x p : str) : Prop :=
  (~ isTarget m x /\ ~ named (cmPaths m) (under pgData x) /\ ~ named (cmFiles m) (under pgData x)) \/ (isFileLink m x /\ noSlashIn p).
Definition linked (o : ropts) (m : cman) (x : str) : cman :=
  mkCman (map (kT o x) (cmTargets m) ++ (if hasT (cmTargets m) x then [] else [newT o m x])) (cmPaths m)
         (map (kL o x) (cmLinks m) ++ (if hasT (cmTargets m) x then [] else [newL o m x])) (cmFiles m).
Lemma mapLink_cases o m x : linkInv m -> In x (map fst (roLink o)) ->
  (~ badAt m x (valOf o x) /\ mapLink o m x = Ok (linked o m x)) \/ (badAt m x (valOf o x) /\ mapLink o m x = Err EOptionInvalidValue).
Proof.
  intros [Hn Hl Hb Hpf Ht Hnew] Hx. destruct (kvGet_key _ _ Hx) as [p Ep]. unfold mapLink, linked, hasT. unfold kT, kL, newT, newL, valOf. rewrite Ep.
  pose proof (find_key mtName (slashed pgData x) (cmTargets m)) as Hf. destruct (find _ (cmTargets m)) as [t|]; cbn [isSome].
  - destruct Hf as [Hin En]. cbn [bind]. destruct (Ht t x Hin En) as (E1 & E2 & E3).
    cbn [mtIsPath mtTablespaceId mtName mtPath mtFile setTarget]. rewrite E1, E2. cbn [Z.eqb negb].
    rewrite lUpdate by assumption. cbn [bind]. rewrite !app_nil_r.
    assert (Hit : isTarget m x) by (now exists t).
    pose proof (path_split p) as Hs.
    destruct (mtFile t) as [f|] eqn:Ef.
    + destruct (length (strPath p) =? 0)%nat eqn:El.
      * right. split; [|reflexivity]. right. apply length_nil in El. rewrite El in Hs. split; [|exact Hs]. left. now exists t, f.
      * left. split.
        -- intros [H|[_ H]]; [tauto|]. destruct (strPath p) eqn:E; [discriminate|]. destruct Hs as (_ & _ & [Hq|(_ & Hq)]); apply H; rewrite Hq; unfold under; rewrite ?in_app_iff; cbn; tauto.
        -- cbn [bind setTarget mtName mtPath mtFile]. rewrite tUpdate; [|exact Hn|apply in_map; exact Hin]. f_equal. cbn [withTargets withLinks cmTargets cmLinks cmPaths cmFiles].
           unfold withTargets. cbn [cmTargets cmPaths cmLinks cmFiles withLinks]. f_equal; [|now rewrite En]. apply map_ext_in. intros u Hu. unfold updBy. rewrite En.
           destruct (strEqb_spec (mtName u) (slashed pgData x)) as [E|E]; [|reflexivity].
           rewrite (key_inj mtName u t _ Hn Hu Hin) by congruence. unfold setFile. rewrite Ef. reflexivity.
    + left. split.
      * intros [H|[[(t' & f & H1 & H2 & H3)|[H _]] _]]; [tauto| |tauto]. rewrite (key_inj mtName t' t _ Hn H1 Hin) in H3 by (rewrite H2; symmetry; exact En). congruence.
      * cbn [bind setTarget mtName mtPath mtFile]. rewrite tUpdate; [|exact Hn|apply in_map; exact Hin]. f_equal.
        unfold withTargets. cbn [cmTargets cmPaths cmLinks cmFiles withLinks]. f_equal; [|now rewrite En]. apply map_ext_in. intros u Hu. unfold updBy. rewrite En.
        destruct (strEqb_spec (mtName u) (slashed pgData x)) as [E|E]; [|reflexivity].
        rewrite (key_inj mtName u t _ Hn Hu Hin) by congruence. unfold setFile. rewrite Ef. reflexivity.
  - assert (Hno : ~ isTarget m x).
    { intros (t & H1 & H2). apply Hf. change (slashed pgData x) with (under pgData x). rewrite <- H2. now apply in_map. }
    rewrite (map_updBy_other mtName) by exact Hf.
    destruct (isSome (findPath (cmPaths m) (slashed pgData x))) eqn:EP; destruct (isSome (findPath (cmFiles m) (slashed pgData x))) eqn:EF; cbn [andb negb bind].
    + apply findPath_named in EP, EF. exfalso. exact (Hpf _ EP EF).
    + apply findPath_named in EP. apply findPath_false in EF.
      rewrite (map_updBy_other mlName) by (apply Hnew; tauto).
      destruct (findPath (cmPaths m) pgData) as [b|] eqn:Eb; [|apply findPath_named in Hb; rewrite Eb in Hb; discriminate].
      cbn [bind mtIsPath mtTablespaceId Z.eqb negb mtFile].
      left. split; [|reflexivity]. intros [H|[[(t' & f & H1 & H2 & H3)|[_ H]] _]]; [tauto| |tauto]. apply Hno. now exists t'.
    + apply findPath_named in EF. apply findPath_false in EP.
      rewrite (map_updBy_other mlName) by (apply Hnew; tauto).
      destruct (findPath (cmPaths m) pgData) as [b|] eqn:Eb; [|apply findPath_named in Hb; rewrite Eb in Hb; discriminate].
      cbn [bind mtIsPath mtTablespaceId Z.eqb negb mtFile mtPath].
      pose proof (path_split p) as Hs. destruct (length (strPath p) =? 0)%nat eqn:El.
      * right. split; [|reflexivity]. right. apply length_nil in El. rewrite El in Hs. split; [|exact Hs]. right. tauto.
      * left. split; [|reflexivity]. intros [H|[_ H]]; [tauto|]. destruct (strPath p) eqn:E; [discriminate|].
        destruct Hs as (_ & _ & [Hq|(_ & Hq)]); apply H; rewrite Hq; unfold under; rewrite ?in_app_iff; cbn; tauto.
    + apply findPath_false in EP, EF. right. split; [|reflexivity]. left. tauto.
Qed.
Lemma linked_names o m x : map mtName (cmTargets (linked o m x)) = map mtName (cmTargets m) ++ (if hasT (cmTargets m) x then [] else [slashed pgData x]).
Proof.
  unfold linked. cbn [cmTargets]. rewrite map_app, map_name_ext by (intros; apply kT_name). f_equal. destruct (hasT _ x); [reflexivity|]. cbn [map].
  f_equal. unfold newT. now rewrite setFile_name.
Qed.
Lemma linked_lnames o m x : map mlName (cmLinks (linked o m x)) = map mlName (cmLinks m) ++ (if hasT (cmTargets m) x then [] else [slashed pgData x]).
Proof.
  unfold linked. cbn [cmLinks]. rewrite map_app, map_name_ext by (intros; apply kL_name). f_equal. destruct (hasT _ x); reflexivity.
Qed.
Lemma isTarget_names m x : isTarget m x <-> In (slashed pgData x) (map mtName (cmTargets m)).
Proof.
  unfold isTarget. split; [intros (t & H1 & H2); change (slashed pgData x) with (under pgData x); rewrite <- H2; now apply in_map|].
  intros H. apply in_map_iff in H. destruct H as (t & E & H). now exists t.
Qed.
Lemma linked_target o m x y : isTarget (linked o m x) y <-> isTarget m y \/ y = x.
Proof.
  rewrite !isTarget_names, linked_names, in_app_iff. destruct (hasT (cmTargets m) x) eqn:E.
  - split; [cbn; tauto|]. intros [H| ->]; [tauto|]. left. apply isTarget_names. now apply hasT_iff.
  - cbn [In]. split; [intros [H|[H|[]]]; [tauto|]; apply slashed_inj in H; auto|]. intros [H| ->]; tauto.
Qed.
Lemma NoDup_snoc {A} (l : list A) a : NoDup l -> ~ In a l -> NoDup (l ++ [a]).
Proof. intros H1 H2. apply (Permutation.Permutation_NoDup (Permutation.Permutation_cons_append l a)). now constructor. Qed.
Lemma kT_keeps o x u : mtIsPath (kT o x u) = mtIsPath u /\ mtTablespaceId (kT o x u) = mtTablespaceId u /\ isSome (mtFile (kT o x u)) = isSome (mtFile u).
Proof. unfold kT, updBy. destruct (strEqb _ _); [|tauto]. unfold setFile. destruct (mtFile u); cbn; tauto. Qed.
Lemma linked_inv o m x : linkInv m -> ~ badAt m x (valOf o x) -> linkInv (linked o m x).
Proof.
  intros [Hn Hl Hb Hpf Ht Hnew] Hbad.
  assert (Hex : ~ isTarget m x -> named (cmPaths m) (under pgData x) \/ named (cmFiles m) (under pgData x)).
  { intros H. rewrite <- !findPath_named. destruct (isSome (findPath (cmPaths m) (under pgData x))) eqn:E1; [tauto|].
    destruct (isSome (findPath (cmFiles m) (under pgData x))) eqn:E2; [tauto|]. apply findPath_false in E1, E2. exfalso. apply Hbad. left. tauto. }
  constructor.
  - rewrite linked_names. destruct (hasT _ x) eqn:E; [now rewrite app_nil_r|]. apply NoDup_snoc; [exact Hn|]. rewrite <- isTarget_names. now apply hasT_false.
  - rewrite linked_lnames. destruct (hasT _ x) eqn:E; [now rewrite app_nil_r|]. apply NoDup_snoc; [exact Hl|]. apply hasT_false in E. apply Hnew; auto.
  - exact Hb.
  - exact Hpf.
  - intros t y Hin En. rewrite linked_lnames. unfold linked in Hin. cbn [cmTargets] in Hin. apply in_app_iff in Hin. destruct Hin as [Hin|Hin].
    + apply in_map_iff in Hin. destruct Hin as (u & <- & Hu). destruct (kT_keeps o x u) as (E1 & E2 & _). rewrite kT_name in En. rewrite E1, E2, kT_name.
      destruct (Ht u y Hu En) as (F1 & F2 & F3). rewrite in_app_iff. tauto.
    + destruct (hasT (cmTargets m) x) eqn:E; [destruct Hin|]. destruct Hin as [<-|[]]. rewrite in_app_iff.
      unfold newT, setFile. cbn [mtFile]. destruct (if isSome _ then _ else _); cbn [setTarget mtIsPath mtTablespaceId mtName]; cbn; tauto.
  - intros y Hy Hp. rewrite linked_target in Hy. rewrite linked_lnames, in_app_iff. intros [H|H].
    + apply (Hnew y); tauto.
    + destruct (hasT _ x); [destruct H|]. destruct H as [H|[]]. apply Hy. right. symmetry. now apply (slashed_inj pgData).
Qed.
Lemma bad_linked o m x y p : linkInv m -> y <> x -> badAt (linked o m x) y p <-> badAt m y p.
Proof.
  intros HI Hne.
  assert (F : isFileLink (linked o m x) y <-> isFileLink m y).
  { unfold isFileLink. rewrite linked_target. cbn [linked cmFiles]. split; (intros [(t & f & H1 & H2 & H3)|H]; [|tauto]).
    - cbn [linked cmTargets] in H1. apply in_app_iff in H1. destruct H1 as [H1|H1].
      + apply in_map_iff in H1. destruct H1 as (u & <- & Hu). rewrite kT_name in H2. destruct (kT_keeps o x u) as (_ & _ & E). rewrite H3 in E.
        left. destruct (mtFile u) as [g|] eqn:Eg; [|discriminate]. now exists u, g.
      + destruct (hasT _ x); [destruct H1|]. destruct H1 as [<-|[]]. exfalso. apply Hne. unfold newT in H2. rewrite setFile_name in H2. cbn [mtName] in H2.
        symmetry. now apply (slashed_inj pgData).
    - left. destruct (kT_keeps o x t) as (_ & _ & E). rewrite H3 in E. destruct (mtFile (kT o x t)) as [g|] eqn:Eg; [|discriminate].
      exists (kT o x t), g. rewrite kT_name. repeat split; auto. cbn [linked cmTargets]. apply in_app_iff. left. now apply in_map. }
  unfold badAt. rewrite F, linked_target. cbn [linked cmPaths cmFiles]. tauto.
Qed.

Definition foldK (o : ropts) (todo : list str) (u : mtarget) : mtarget := fold_left (fun u x => kT o x u) todo u.
Definition foldKL (o : ropts) (todo : list str) (k : mlink) : mlink := fold_left (fun k x => kL o x k) todo k.
Definition fresh (m : cman) (todo : list str) : list str := filter (fun x => negb (hasT (cmTargets m) x)) todo.
Lemma foldK_other o todo u : (forall x, In x todo -> mtName u <> slashed pgData x) -> foldK o todo u = u.
Proof.
  unfold foldK. revert u. induction todo as [|x todo IH]; intros u H; [reflexivity|]. cbn [fold_left]. unfold kT at 2. rewrite updBy_other by (apply H; cbn; tauto).
  apply IH. intros y Hy. apply H. cbn. tauto.
Qed.
Lemma foldKL_other o todo k : (forall x, In x todo -> mlName k <> slashed pgData x) -> foldKL o todo k = k.
Proof.
  unfold foldKL. revert k. induction todo as [|x todo IH]; intros u H; [reflexivity|]. cbn [fold_left]. unfold kL at 2. rewrite updBy_other by (apply H; cbn; tauto).
  apply IH. intros y Hy. apply H. cbn. tauto.
Qed.
Lemma foldK_in o todo u x : NoDup todo -> In x todo -> mtName u = slashed pgData x -> foldK o todo u = setFile (valOf o x) u.
Proof.
  unfold foldK. induction todo as [|y todo IH]; intros Hn Hi E; [destruct Hi|]. cbn [fold_left]. apply NoDup_cons_iff in Hn. destruct Hn as [H1 H2].
  destruct Hi as [->|Hi].
  - unfold kT at 2. rewrite updBy_same by exact E. apply foldK_other. intros z Hz E'. rewrite setFile_name, E in E'. apply slashed_inj in E'. subst z. tauto.
  - unfold kT at 2. rewrite updBy_other; [now apply IH|]. rewrite E. intros E'. apply slashed_inj in E'. subst y. tauto.
Qed.
Lemma foldKL_in o todo k x : NoDup todo -> In x todo -> mlName k = slashed pgData x -> foldKL o todo k = setLink (valOf o x) k.
Proof.
  unfold foldKL. induction todo as [|y todo IH]; intros Hn Hi E; [destruct Hi|]. cbn [fold_left]. apply NoDup_cons_iff in Hn. destruct Hn as [H1 H2].
  destruct Hi as [->|Hi].
  - unfold kL at 2. rewrite updBy_same by exact E. apply foldKL_other. intros z Hz E'. cbn [setLink mlName] in E'. rewrite E in E'. apply slashed_inj in E'. subst z. tauto.
  - unfold kL at 2. rewrite updBy_other; [now apply IH|]. rewrite E. intros E'. apply slashed_inj in E'. subst y. tauto.
Qed.
Lemma filter_ext_in' {A} (f g : A -> bool) l : (forall a, In a l -> f a = g a) -> filter f l = filter g l.
Proof. intros H. now apply filter_ext_in. Qed.
Lemma mapLinks_cases o : forall todo m, linkInv m -> NoDup todo -> incl todo (map fst (roLink o)) ->
  ((forall x, In x todo -> ~ badAt m x (valOf o x)) /\ mapLinks o todo m =
     Ok (mkCman (map (foldK o todo) (cmTargets m) ++ map (newT o m) (fresh m todo)) (cmPaths m)
                (map (foldKL o todo) (cmLinks m) ++ map (newL o m) (fresh m todo)) (cmFiles m))) \/
  ((exists x, In x todo /\ badAt m x (valOf o x)) /\ mapLinks o todo m = Err EOptionInvalidValue).
Proof.
  induction todo as [|x todo IH]; intros m HI Hn Hi; cbn [mapLinks].
  - left. split; [intros ? []|]. unfold fresh, foldK, foldKL. cbn [filter map fold_left]. rewrite !map_id, !app_nil_r, cman_eta. reflexivity.
  - apply NoDup_cons_iff in Hn. destruct Hn as [N1 N2]. destruct (mapLink_cases o m x HI) as [[Hb E]|[Hb E]]; [apply Hi; cbn; tauto| |]; rewrite E; cbn [bind].
    2:{ right. split; [|reflexivity]. exists x. cbn. tauto. }
    destruct (IH (linked o m x)) as [[H1 H2]|[(y & H1 & H2) H3]]; [now apply linked_inv|exact N2|intros y Hy; apply Hi; cbn; tauto| |].
    + left. split.
      { intros y [<-|Hy]; [exact Hb|]. rewrite <- (bad_linked o m x y); [now apply H1|exact HI|]. intros ->. tauto. }
      rewrite H2. f_equal. cbn [linked cmTargets cmPaths cmLinks cmFiles].
      assert (Ef : fresh (linked o m x) todo = fresh m todo).
      { apply filter_ext_in'. intros y Hy. f_equal. apply eq_true_iff_eq. rewrite !hasT_iff, linked_target. split; [|tauto]. intros [H| ->]; tauto. }
      fold (linked o m x). rewrite Ef. unfold fresh. cbn [filter]. fold (fresh m todo). f_equal.
      * rewrite map_app, map_map. unfold foldK at 3. cbn [fold_left]. rewrite <- app_assoc. f_equal. destruct (hasT (cmTargets m) x); cbn [negb map app]; [reflexivity|].
        f_equal. apply foldK_other. unfold newT. rewrite setFile_name. cbn [mtName]. intros y Hy E'. apply slashed_inj in E'. subst y. tauto.
      * rewrite map_app, map_map. unfold foldKL at 3. cbn [fold_left]. rewrite <- app_assoc. f_equal. destruct (hasT (cmTargets m) x); cbn [negb map app]; [reflexivity|].
        f_equal. apply foldKL_other. unfold newL. cbn [mlName]. intros y Hy E'. apply slashed_inj in E'. subst y. tauto.
    + right. split; [|exact H3]. exists y. split; [cbn; tauto|]. rewrite bad_linked in H2; auto. intros ->. tauto.
Qed.
