(** The links that are dropped and the whole *)
From Verif Require Import Base Str NumModel ManifestPackModel ManifestModel LinkCheckModel CleanModel RemapModel RemapSpec RemapProof RemapProof2 RemapProof3.
From Coq Require Import Sorted.
Open Scope Z_scope.

Definition dropT (o : ropts) (t : mtarget) : bool :=
  negb (mtIsPath t) && (mtTablespaceId t =? 0) && negb (isSome (kvGet (roLink o) (skipn (length pgData + 1) (mtName t)))).
Definition dropsL (o : ropts) (b : list mtarget) (k : mlink) : bool := existsb (fun t => dropT o t && strEqb (mtName t) (mlName k)) b.
Lemma filter_filter {A} (p q : A -> bool) l : filter p (filter q l) = filter (fun a => q a && p a) l.
Proof. induction l as [|a l IH]; cbn [filter]; [reflexivity|]. destruct (q a); cbn [filter andb]; rewrite IH; reflexivity. Qed.
Lemma dropLinks_ok o P F : forall n (a b : list mtarget) L, NoDup (map mtName (a ++ b)) -> NoDup (map mlName L) ->
  (forall t, In t b -> dropT o t = true -> In (mtName t) (map mlName L)) -> (length b <= n)%nat ->
  dropLinks n o (length a) (mkCman (a ++ b) P L F) =
    Ok (mkCman (a ++ filter (fun t => negb (dropT o t)) b) P (filter (fun k => negb (dropsL o b k)) L) F).
Proof.
  induction n as [|n IH]; intros a b L Hn Hl Hd Hlen.
  - destruct b; [|cbn in Hlen; lia]. cbn [dropLinks filter dropsL existsb negb]. rewrite (filter_all (fun _ => true)) by reflexivity. reflexivity.
  - cbn [dropLinks cmTargets]. destruct b as [|t b].
    + rewrite (proj2 (nth_error_None (a ++ []) (length a))) by (rewrite app_nil_r; lia). cbn [filter dropsL existsb negb].
      rewrite (filter_all (fun _ => true)) by reflexivity. reflexivity.
    + rewrite nth_error_app2 by lia. rewrite Nat.sub_diag. cbn [nth_error]. fold (dropT o t). cbn [filter]. destruct (dropT o t) eqn:E; cbn [negb].
      * assert (Hx : forall u, In u (a ++ b) -> mtName u <> mtName t).
        { intros u Hu En. rewrite map_app in Hn. cbn [map] in Hn. apply NoDup_remove_2 in Hn. apply Hn. rewrite <- En, <- map_app. now apply in_map. }
        unfold manifestLinkRemove. cbn [cmLinks]. rewrite (removeFirst_filter mlName) by (auto; apply Hd; cbn; auto). cbn [bind withLinks cmTargets cmPaths cmFiles].
        unfold manifestTargetRemove. cbn [cmTargets]. rewrite (removeFirst_filter mtName); [|exact Hn|apply in_map; apply in_app_iff; cbn; tauto].
        unfold withTargets, withLinks. cbn [bind cmTargets cmLinks cmPaths cmFiles]. rewrite filter_app. cbn [filter]. rewrite strEqb_refl. cbn [negb].
        rewrite !filter_all by (intros u Hu; apply negb_true_iff, strEqb_neq, Hx; rewrite in_app_iff; tauto).
        rewrite IH.
        -- f_equal. f_equal. rewrite filter_filter. apply filter_ext. intros k. unfold dropsL at 2. cbn [existsb]. rewrite E, negb_orb, (strEqb_sym (mtName t)). reflexivity.
        -- rewrite map_app in Hn |- *. cbn [map] in Hn. now apply NoDup_remove_1 in Hn.
        -- revert Hl. generalize (fun k => negb (strEqb (mlName k) (mtName t))). clear. intros p. induction L as [|k L IH]; cbn [map filter]; [auto|].
           intros H. apply NoDup_cons_iff in H. destruct H as [H1 H2]. destruct (p k); [|auto]. cbn [map]. constructor; [|auto].
           intros H. apply H1. apply in_map_iff in H. destruct H as (k' & <- & H). apply filter_In in H. now apply in_map.
        -- intros u Hu Du. specialize (Hd u (or_intror Hu) Du). apply in_map_iff in Hd. destruct Hd as (k & Ek & Hk). rewrite <- Ek. apply in_map. apply filter_In.
           split; [exact Hk|]. apply negb_true_iff, strEqb_neq. rewrite Ek. apply Hx. rewrite in_app_iff. tauto.
        -- cbn in Hlen. lia.
      * replace (S (length a)) with (length (a ++ [t])) by (rewrite app_length; cbn; lia).
        replace (a ++ t :: b) with ((a ++ [t]) ++ b) in * by (rewrite <- app_assoc; reflexivity).
        rewrite IH.
        -- f_equal. f_equal; [rewrite <- app_assoc; reflexivity|]. apply filter_ext. intros k. unfold dropsL at 2. cbn [existsb]. rewrite E. reflexivity.
        -- exact Hn.
        -- exact Hl.
        -- intros u Hu. apply Hd. cbn. tauto.
        -- cbn in Hlen. lia.
Qed.

Lemma foldT_other o todo u : (forall t, In t todo -> isTablespace t -> mtName u <> mtName t) -> foldT o todo u = u.
Proof.
  unfold foldT. revert u. induction todo as [|x todo IH]; intros u H; [reflexivity|]. cbn [fold_left].
  assert (E : tsT o x u = u).
  { unfold tsT. destruct (isTs_spec x) as [T|T]; [|reflexivity]. destruct (tablespacePath o x) as [[p|]| |]; try reflexivity. apply updBy_other, H; cbn; tauto. }
  rewrite E. apply IH. intros y Hy. apply H. cbn. tauto.
Qed.
Lemma foldL_other o todo k : (forall t, In t todo -> isTablespace t -> mlName k <> slashed pgData (mtName t)) -> foldL o todo k = k.
Proof.
  unfold foldL. revert k. induction todo as [|x todo IH]; intros u H; [reflexivity|]. cbn [fold_left].
  assert (E : tsL o x u = u).
  { unfold tsL. destruct (isTs_spec x) as [T|T]; [|reflexivity]. destruct (tablespacePath o x) as [[p|]| |]; try reflexivity. apply updBy_other, H; cbn; tauto. }
  rewrite E. apply IH. intros y Hy. apply H. cbn. tauto.
Qed.
Lemma foldT_in o todo u t : NoDup (map mtName todo) -> In t todo -> mtName u = mtName t -> foldT o todo u = tsT o t u.
Proof.
  unfold foldT. induction todo as [|y todo IH]; intros Hn Hi E; [destruct Hi|]. cbn [fold_left map] in *. apply NoDup_cons_iff in Hn. destruct Hn as [H1 H2].
  destruct Hi as [->|Hi].
  - apply foldT_other. intros z Hz _. rewrite tsT_name, E. intros E'. apply H1. rewrite E'. now apply in_map.
  - replace (tsT o y u) with u; [now apply IH|]. unfold tsT. destruct (isTs y); [|reflexivity].
    destruct (tablespacePath o y) as [[p|]| |]; try reflexivity. symmetry. apply updBy_other. rewrite E. intros E'. apply H1. rewrite <- E'. now apply in_map.
Qed.
Lemma foldL_in o todo k t : NoDup (map mtName todo) -> In t todo -> mlName k = slashed pgData (mtName t) -> foldL o todo k = tsL o t k.
Proof.
  unfold foldL. induction todo as [|y todo IH]; intros Hn Hi E; [destruct Hi|]. cbn [fold_left map] in *. apply NoDup_cons_iff in Hn. destruct Hn as [H1 H2].
  destruct Hi as [->|Hi].
  - apply foldL_other. intros z Hz _. rewrite tsL_name, E. intros E'. apply slashed_inj in E'. apply H1. rewrite E'. now apply in_map.
  - replace (tsL o y k) with k; [now apply IH|]. unfold tsL. destruct (isTs y); [|reflexivity].
    destruct (tablespacePath o y) as [[p|]| |]; try reflexivity. symmetry. apply updBy_other. rewrite E. intros E'. apply slashed_inj in E'. apply H1. rewrite <- E'. now apply in_map.
Qed.

Lemma baseF_keeps o t : mtName (baseF o t) = mtName t /\ mtIsPath (baseF o t) = mtIsPath t /\ mtTablespaceId (baseF o t) = mtTablespaceId t /\
  mtTablespaceName (baseF o t) = mtTablespaceName t /\ mtFile (baseF o t) = mtFile t.
Proof. unfold baseF, updBy. destruct (strEqb _ _); cbn; tauto. Qed.
Lemma baseF_other o t : mtName t <> pgData -> baseF o t = t.
Proof. apply updBy_other. Qed.
Lemma pg_under x : pgData <> under pgData x.
Proof. intros H. apply (f_equal (@length Z)) in H. unfold under in H. rewrite app_length in H. cbn in H. lia. Qed.
Lemma tblspc_under x y : under pgTblspc x <> under pgData y.
Proof. discriminate. Qed.

Section Whole.
Variables (o : ropts) (m : cman).
Hypothesis (Ho : optsWf o) (Hw : mapWf m).
Definition m1 : cman := withTargets m (map (baseF o) (cmTargets m)).
Definition m2 : cman :=
  mkCman (map (foldT o (cmTargets m1)) (cmTargets m1)) (cmPaths m1) (map (foldL o (cmTargets m1)) (cmLinks m1)) (cmFiles m1).
Definition keys : list str := strLstSortAsc (map fst (roLink o)).
Definition m3 : cman := mkCman (map (foldK o keys) (cmTargets m2) ++ map (newT o m2) (fresh m2 keys)) (cmPaths m2)
                (map (foldKL o keys) (cmLinks m2) ++ map (newL o m2) (fresh m2 keys)) (cmFiles m2).
Definition tgt (t : mtarget) : mtarget := foldK o keys (foldT o (cmTargets m1) (baseF o t)).
Definition lnk (k : mlink) : mlink := foldKL o keys (foldL o (cmTargets m1) k).

Lemma m1_names : map mtName (cmTargets m1) = map mtName (cmTargets m).
Proof. cbn [m1 withTargets cmTargets]. apply map_name_ext. intros t. apply baseF_keeps. Qed.
Lemma foldT_name todo u : mtName (foldT o todo u) = mtName u.
Proof. unfold foldT. revert u. induction todo as [|x todo IH]; intros u; [reflexivity|]. cbn [fold_left]. rewrite IH. apply tsT_name. Qed.
Lemma foldL_name todo u : mlName (foldL o todo u) = mlName u.
Proof. unfold foldL. revert u. induction todo as [|x todo IH]; intros u; [reflexivity|]. cbn [fold_left]. rewrite IH. apply tsL_name. Qed.
Lemma foldK_name todo u : mtName (foldK o todo u) = mtName u.
Proof. unfold foldK. revert u. induction todo as [|x todo IH]; intros u; [reflexivity|]. cbn [fold_left]. rewrite IH. apply kT_name. Qed.
Lemma foldKL_name todo u : mlName (foldKL o todo u) = mlName u.
Proof. unfold foldKL. revert u. induction todo as [|x todo IH]; intros u; [reflexivity|]. cbn [fold_left]. rewrite IH. apply kL_name. Qed.
Lemma m2_names : map mtName (cmTargets m2) = map mtName (cmTargets m).
Proof. cbn [m2 cmTargets]. rewrite map_name_ext by (intros; apply foldT_name). apply m1_names. Qed.
Lemma m2_lnames : map mlName (cmLinks m2) = map mlName (cmLinks m).
Proof. cbn [m2 cmLinks]. rewrite map_name_ext by (intros; apply foldL_name). reflexivity. Qed.
Lemma m1_in t : In t (cmTargets m) -> isTablespace t -> In t (cmTargets m1) /\ baseF o t = t.
Proof.
  intros Ht T. assert (E : baseF o t = t).
  { apply baseF_other. intros En. apply (wfIsBase _ Hw t Ht En). exact T. }
  split; [|exact E]. rewrite <- E. cbn [m1 withTargets cmTargets]. now apply in_map.
Qed.
Lemma m1_ts t : In t (cmTargets m1) -> isTablespace t -> In t (cmTargets m).
Proof.
  intros Ht T. cbn [m1 withTargets cmTargets] in Ht. apply in_map_iff in Ht. destruct Ht as (u & E & Hu).
  assert (Tu : isTablespace u). { unfold isTablespace in *. destruct (baseF_keeps o u) as (_ & _ & E' & _). rewrite E in E'. rewrite <- E'. exact T. }
  destruct (m1_in u Hu Tu) as [_ E']. rewrite E' in E. now subst u.
Qed.
Lemma bad_m1 : tsBad o m1 <-> tsBad o m.
Proof.
  unfold tsBad. split.
  - intros [(t & k1 & k2 & p & q & H1 & H2 & H3)|(k & p & H1 & H2)].
    + left. exists t, k1, k2, p, q. split; [now apply m1_ts|tauto].
    + right. exists k, p. split; [exact H1|]. intros t Ht T. apply H2; [|exact T]. now apply m1_in.
  - intros [(t & k1 & k2 & p & q & H1 & H2 & H3)|(k & p & H1 & H2)].
    + left. exists t, k1, k2, p, q. split; [now apply m1_in|tauto].
    + right. exists k, p. split; [exact H1|]. intros t Ht T. apply H2; [|exact T]. now apply m1_ts.
Qed.
Lemma ts_link t : In t (cmTargets m) -> isTablespace t -> In (slashed pgData (mtName t)) (map mlName (cmLinks m)).
Proof.
  intros Ht T. destruct (wfHasLink _ Hw t Ht) as (k & Hk & [[_ E]|[N _]] & _); [intros E; exact (proj2 (wfIsBase _ Hw t Ht E) T)| |tauto].
  change (slashed pgData (mtName t)) with (under pgData (mtName t)). rewrite <- E. now apply in_map.
Qed.
Lemma ts_cases : (~ tsBad o m /\ mapTablespace o m1 = Ok m2) \/ (tsBad o m /\ mapTablespace o m1 = Err EOther).
Proof.
  rewrite <- bad_m1. apply mapTablespace_cases.
  - apply Ho.
  - rewrite m1_names. apply Hw.
  - apply Hw.
  - intros t Ht T. apply m1_ts in Ht; [|exact T]. split; [now apply ts_link|]. apply (wfTablespace _ Hw t Ht T).
Qed.
(** A target after the tablespaces were mapped *)
Lemma ts_name_not t x : In t (cmTargets m) -> isTablespace t -> mtName t <> under pgData x.
Proof. intros Ht T. destruct (wfTablespace _ Hw t Ht T) as ((n & ->) & _). apply tblspc_under. Qed.
Lemma m1_nodup : NoDup (map mtName (cmTargets m1)).
Proof. rewrite m1_names. apply Hw. Qed.
Lemma tgt2_other t : In t (cmTargets m) -> ~ isTablespace t -> foldT o (cmTargets m1) (baseF o t) = baseF o t.
Proof.
  intros Ht T. apply foldT_other. intros u Hu Tu E. destruct (baseF_keeps o t) as (En & _). rewrite En in E.
  apply m1_ts in Hu; [|exact Tu]. apply T. rewrite (key_inj mtName t u _ (wfNames _ Hw) Ht Hu E). exact Tu.
Qed.
Lemma tgt2_ts t : In t (cmTargets m) -> isTablespace t -> foldT o (cmTargets m1) (baseF o t) = tsT o t t.
Proof. intros Ht T. destruct (m1_in t Ht T) as [Hi ->]. apply foldT_in; [apply m1_nodup|exact Hi|reflexivity]. Qed.
Lemma tgt2_keeps t : In t (cmTargets m) -> let u := foldT o (cmTargets m1) (baseF o t) in
  mtName u = mtName t /\ mtIsPath u = mtIsPath t /\ mtTablespaceId u = mtTablespaceId t /\ mtFile u = mtFile t.
Proof.
  intros Ht u. subst u. destruct (isTs_spec t) as [T|T].
  - rewrite tgt2_ts by assumption. unfold tsT. destruct (isTs t); [|tauto]. destruct (tablespacePath o t) as [[p|]| |]; try tauto.
    rewrite updBy_same by reflexivity. cbn. destruct (wfTablespace _ Hw t Ht T) as (_ & -> & _). tauto.
  - rewrite tgt2_other by assumption. destruct (baseF_keeps o t) as (E1 & E2 & E3 & _ & E4). tauto.
Qed.
Lemma m2_in u : In u (cmTargets m2) <-> exists t, In t (cmTargets m) /\ u = foldT o (cmTargets m1) (baseF o t).
Proof.
  cbn [m2 cmTargets]. rewrite in_map_iff. split.
  - intros (v & <- & Hv). cbn [m1 withTargets cmTargets] in Hv. apply in_map_iff in Hv. destruct Hv as (t & <- & Ht). now exists t.
  - intros (t & Ht & ->). exists (baseF o t). split; [reflexivity|]. cbn [m1 withTargets cmTargets]. now apply in_map.
Qed.
Lemma m2_target x : isTarget m2 x <-> isTarget m x.
Proof. rewrite !isTarget_names, m2_names. tauto. Qed.
Lemma link_target t x : In t (cmTargets m) -> mtName t = under pgData x -> mtIsPath t = false /\ mtTablespaceId t = 0 /\ In (mtName t) (map mlName (cmLinks m)).
Proof.
  intros Ht E. assert (Hb : mtName t <> pgData) by (rewrite E; intros H; symmetry in H; exact (pg_under _ H)).
  assert (T : ~ isTablespace t) by (intros T; exact (ts_name_not t x Ht T E)).
  repeat split.
  - exact (wfTarget _ Hw t Ht Hb).
  - unfold isTablespace in T. lia.
  - destruct (wfHasLink _ Hw t Ht Hb) as (k & Hk & [[Tk _]|[_ En]] & _); [tauto|]. rewrite <- En. now apply in_map.
Qed.
Lemma inv_m2 : linkInv m2.
Proof.
  constructor.
  - rewrite m2_names. apply Hw.
  - rewrite m2_lnames. apply Hw.
  - apply Hw.
  - apply (wfPathFile _ Hw).
  - intros u x Hu E. rewrite m2_lnames. apply m2_in in Hu. destruct Hu as (t & Ht & ->). destruct (tgt2_keeps t Ht) as (E1 & E2 & E3 & _).
    rewrite E1 in E. rewrite E1, E2, E3. now apply (link_target t x).
  - intros x Hx Hp. rewrite m2_lnames. rewrite m2_target in Hx. change (cmPaths m2) with (cmPaths m) in Hp. change (cmFiles m2) with (cmFiles m) in Hp.
    intros H. apply in_map_iff in H. destruct H as (k & Ek & Hk). destruct (wfHasTarget _ Hw k Hk) as (t & Ht & Hb & [[T E]|[T E]]).
    + destruct (wfTablespace _ Hw t Ht T) as (_ & _ & _ & N1 & N2). rewrite <- E, Ek in N1, N2. tauto.
    + apply Hx. exists t. split; [exact Ht|congruence].
Qed.
Lemma keys_nodup : NoDup keys.
Proof. unfold keys. apply (Permutation.Permutation_NoDup (Permutation.Permutation_sym (strLstSortAsc_perm _))). apply Ho. Qed.
Lemma keys_in x : In x keys <-> In x (map fst (roLink o)).
Proof. apply strLstSortAsc_in. Qed.
Lemma val_in x : In x keys -> In (x, valOf o x) (roLink o).
Proof. intros H. apply keys_in in H. destruct (kvGet_key _ _ H) as [p E]. unfold valOf. rewrite E. now apply kvGet_in. Qed.
Lemma in_val x p : In (x, p) (roLink o) -> In x keys /\ valOf o x = p.
Proof.
  intros H. split; [apply keys_in; change x with (fst (x, p)); now apply in_map|]. unfold valOf. rewrite (kvGet_some _ _ _ (proj2 Ho) H). reflexivity.
Qed.
Lemma bad_m2 : linkBad o m <-> exists x, In x keys /\ badAt m2 x (valOf o x).
Proof.
  assert (F : forall x, isFileLink m2 x <-> isFileLink m x).
  { intros x. unfold isFileLink. rewrite m2_target. change (cmFiles m2) with (cmFiles m). split; (intros [(t & f & H1 & H2 & H3)|H]; [|tauto]); left.
    - apply m2_in in H1. destruct H1 as (u & Hu & ->). destruct (tgt2_keeps u Hu) as (E1 & _ & _ & E2). exists u, f. rewrite E1 in H2. rewrite E2 in H3. tauto.
    - exists (foldT o (cmTargets m1) (baseF o t)), f. destruct (tgt2_keeps t H1) as (E1 & _ & _ & E2). rewrite E1, E2. repeat split; auto. apply m2_in. now exists t. }
  unfold linkBad, badAt. change (cmPaths m2) with (cmPaths m). change (cmFiles m2) with (cmFiles m). split.
  - intros (x & p & H1 & H2). destruct (in_val x p H1) as [Hk <-]. exists x. split; [exact Hk|]. rewrite m2_target, F. exact H2.
  - intros (x & Hk & H2). exists x, (valOf o x). split; [now apply val_in|]. rewrite m2_target, F in H2. exact H2.
Qed.
Definition m4 : cman :=
  mkCman (filter (fun t => negb (dropT o t)) (cmTargets m3)) (cmPaths m3) (filter (fun k => negb (dropsL o (cmTargets m3) k)) (cmLinks m3)) (cmFiles m3).
Lemma m3_names : map mtName (cmTargets m3) = map mtName (cmTargets m) ++ map (slashed pgData) (fresh m2 keys).
Proof.
  cbn [m3 cmTargets]. rewrite map_app, map_name_ext by (intros; apply foldK_name). rewrite m2_names. f_equal. rewrite map_map. apply map_ext. intros x.
  unfold newT. now rewrite setFile_name.
Qed.
Lemma m3_lnames : map mlName (cmLinks m3) = map mlName (cmLinks m) ++ map (slashed pgData) (fresh m2 keys).
Proof.
  cbn [m3 cmLinks]. rewrite map_app, map_name_ext by (intros; apply foldKL_name). rewrite m2_lnames. f_equal. rewrite map_map. reflexivity.
Qed.
Lemma fresh_in x : In x (fresh m2 keys) <-> In x keys /\ ~ isTarget m x.
Proof. unfold fresh. rewrite filter_In, negb_true_iff, hasT_false, m2_target. tauto. Qed.
Lemma fresh_nodup : NoDup (fresh m2 keys).
Proof. apply NoDup_filter, keys_nodup. Qed.
Lemma NoDup_map_inj {A B} (f : A -> B) l : (forall a b, f a = f b -> a = b) -> NoDup l -> NoDup (map f l).
Proof.
  intros Hf. induction l as [|a l IH]; cbn [map]; intros H; [constructor|]. apply NoDup_cons_iff in H. destruct H as [H1 H2]. constructor; [|auto].
  intros H. apply in_map_iff in H. destruct H as (b & E & Hb). apply H1. rewrite (Hf a b) by congruence. exact Hb.
Qed.
Lemma NoDup_app_intro {A} (a b : list A) : NoDup a -> NoDup b -> (forall x, In x a -> ~ In x b) -> NoDup (a ++ b).
Proof.
  induction a as [|x a IH]; cbn [app]; [auto|]. intros H1 H2 H3. apply NoDup_cons_iff in H1. destruct H1 as [N1 N2]. constructor.
  - rewrite in_app_iff. intros [H|H]; [tauto|]. exact (H3 x (or_introl eq_refl) H).
  - apply IH; auto. intros y Hy. apply H3. cbn. tauto.
Qed.
Lemma m3_nodup : NoDup (map mtName (cmTargets m3)).
Proof.
  rewrite m3_names. apply NoDup_app_intro; [apply Hw|apply NoDup_map_inj; [apply slashed_inj|apply fresh_nodup]|].
  intros n Hn H. apply in_map_iff in H. destruct H as (x & <- & Hx). apply fresh_in in Hx. apply (proj2 Hx). apply isTarget_names. exact Hn.
Qed.
Lemma m3_lnodup : ~ linkBad o m -> NoDup (map mlName (cmLinks m3)).
Proof.
  intros Hg. rewrite m3_lnames. apply NoDup_app_intro; [apply Hw|apply NoDup_map_inj; [apply slashed_inj|apply fresh_nodup]|].
  intros n Hn H. apply in_map_iff in H. destruct H as (x & <- & Hx). apply fresh_in in Hx. destruct Hx as [Hk Hx].
  assert (Hp : named (cmPaths m) (under pgData x) \/ named (cmFiles m) (under pgData x)).
  { rewrite <- !findPath_named. destruct (isSome (findPath (cmPaths m) (under pgData x))) eqn:E1; [tauto|].
    destruct (isSome (findPath (cmFiles m) (under pgData x))) eqn:E2; [tauto|]. apply findPath_false in E1, E2. exfalso. apply Hg.
    exists x, (valOf o x). split; [now apply val_in|]. tauto. }
  pose proof (liNew _ inv_m2 x) as H. rewrite m2_target, m2_lnames in H. exact (H Hx Hp Hn).
Qed.
Lemma tgt_keeps t : In t (cmTargets m) -> mtName (tgt t) = mtName t /\ mtIsPath (tgt t) = mtIsPath t /\ mtTablespaceId (tgt t) = mtTablespaceId t /\
  isSome (mtFile (tgt t)) = isSome (mtFile t).
Proof.
  intros Ht. unfold tgt. destruct (tgt2_keeps t Ht) as (E1 & E2 & E3 & E4). rewrite <- E1, <- E2, <- E3, <- E4. generalize (foldT o (cmTargets m1) (baseF o t)).
  clear. unfold foldK. generalize keys. intros l. induction l as [|x l IH]; intros u; cbn [fold_left]; [tauto|].
  destruct (IH (kT o x u)) as (E1 & E2 & E3 & E4). rewrite E1, E2, E3, E4, kT_name. destruct (kT_keeps o x u) as (F1 & F2 & F3). tauto.
Qed.
Lemma m3_targets : cmTargets m3 = map tgt (cmTargets m) ++ map (newT o m2) (fresh m2 keys).
Proof. cbn [m3 cmTargets]. f_equal. cbn [m2 cmTargets m1 withTargets]. rewrite !map_map. reflexivity. Qed.
Lemma m3_links : cmLinks m3 = map lnk (cmLinks m) ++ map (newL o m2) (fresh m2 keys).
Proof. cbn [m3 cmLinks]. f_equal. cbn [m2 cmLinks m1 withTargets]. rewrite !map_map. reflexivity. Qed.
Lemma skip_under x : skipn (length pgData + 1) (under pgData x) = x.
Proof. reflexivity. Qed.
Lemma newT_keeps x : mtName (newT o m2 x) = slashed pgData x /\ mtIsPath (newT o m2 x) = false /\ mtTablespaceId (newT o m2 x) = 0 /\ mtTablespaceName (newT o m2 x) = None.
Proof. unfold newT, setFile. cbn [mtFile]. destruct (if isSome _ then _ else _); cbn [setTarget mtName mtIsPath mtTablespaceId mtTablespaceName]; tauto. Qed.
Lemma newT_kept x : In x keys -> dropT o (newT o m2 x) = false.
Proof.
  intros Hx. unfold dropT. destruct (newT_keeps x) as (-> & -> & -> & _). change (slashed pgData x) with (under pgData x). rewrite skip_under.
  apply keys_in in Hx. destruct (kvGet_key _ _ Hx) as [p ->]. reflexivity.
Qed.
Lemma dropT_tgt t : In t (cmTargets m) -> dropT o (tgt t) = true <-> mtName t <> pgData /\ ~ isTablespace t /\ exists x, mtName t = under pgData x /\ forall p, ~ In (x, p) (roLink o).
Proof.
  intros Ht. unfold dropT. destruct (tgt_keeps t Ht) as (-> & -> & -> & _). rewrite !andb_true_iff, !negb_true_iff. split.
  - intros [[H1 H2] H3]. assert (Hb : mtName t <> pgData). { intros E. destruct (wfIsBase _ Hw t Ht E) as [H _]. congruence. }
    assert (T : ~ isTablespace t) by (unfold isTablespace; lia). repeat split; auto.
    destruct (wfLink _ Hw t Ht Hb T) as (x & E). exists x. split; [exact E|]. rewrite E, skip_under in H3. apply kvGet_none. destruct (kvGet (roLink o) x); [discriminate|reflexivity].
  - intros (Hb & T & x & E & H). repeat split.
    + exact (wfTarget _ Hw t Ht Hb).
    + unfold isTablespace in T. lia.
    + rewrite E, skip_under. rewrite (proj2 (kvGet_none (roLink o) x) H). reflexivity.
Qed.
Definition result : cman := if roLinkAll o then m3 else m4.
Lemma whole_cases :
  (~ tsBad o m /\ ~ linkBad o m /\ restoreManifestMap o m = Ok result) \/
  (tsBad o m /\ restoreManifestMap o m = Err EOther) \/
  (~ tsBad o m /\ linkBad o m /\ restoreManifestMap o m = Err EOptionInvalidValue).
Proof.
  unfold restoreManifestMap. rewrite mapBase_ok; [|apply Hw|exact (wfBase _ Hw)]. cbn [bind]. fold m1.
  destruct ts_cases as [[H1 E1]|[H1 E1]]; rewrite E1; cbn [bind]; [|tauto]. fold keys.
  destruct (mapLinks_cases o keys m2 inv_m2 keys_nodup) as [[H2 E2]|[H2 E2]]; [intros x; apply keys_in| |]; rewrite E2; cbn [bind]; fold m3.
  - assert (Hg : ~ linkBad o m). { rewrite bad_m2. intros (x & Hx & Hbad). exact (H2 x Hx Hbad). }
    left. split; [exact H1|]. split; [exact Hg|]. unfold result. destruct (roLinkAll o); [reflexivity|].
    rewrite <- (cman_eta m3) at 2. change O with (length (@nil mtarget)) at 1. change (cmTargets m3) with ([] ++ cmTargets m3) at 2.
    rewrite dropLinks_ok; [reflexivity|exact m3_nodup|now apply m3_lnodup| |lia].
    intros u Hu Hd. rewrite m3_lnames, in_app_iff. rewrite m3_targets, in_app_iff in Hu. destruct Hu as [Hu|Hu].
    + apply in_map_iff in Hu. destruct Hu as (t & <- & Ht). left. apply dropT_tgt in Hd; [|exact Ht]. destruct Hd as (_ & _ & x & E & _).
      destruct (tgt_keeps t Ht) as (-> & _). now apply (link_target t x).
    + apply in_map_iff in Hu. destruct Hu as (x & <- & Hx). right. destruct (newT_keeps x) as (-> & _). now apply in_map.
  - right. right. split; [exact H1|]. split; [|reflexivity]. apply bad_m2. exact H2.
Qed.
End Whole.
