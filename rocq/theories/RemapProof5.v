(** The result is the one specified *)
From Verif Require Import Base Str NumModel ManifestPackModel ManifestModel LinkCheckModel CleanModel RemapModel RemapSpec RemapProof RemapProof2 RemapProof3 RemapProof4.
From Coq Require Import Sorted.
Open Scope Z_scope.

Lemma sle_ssorted l : StronglySorted sle l -> NoDup l -> ssorted l.
Proof.
  intros Hs Hn. induction Hs as [|a l Hs IH Ha]; [constructor|]. apply NoDup_cons_iff in Hn. destruct Hn as [N1 N2]. constructor; [now apply IH|].
  rewrite Forall_forall in *. intros b Hb. destruct (proj1 (sle_lt_eq a b) (Ha b Hb)) as [H| ->]; [exact H|tauto].
Qed.
Lemma filter_somes {A B} (p : B -> bool) (g : A -> B) l : filter p (map g l) = somes (map (fun a => if p (g a) then Some (g a) else None) l).
Proof. unfold somes. induction l as [|a l IH]; cbn [map filter flat_map]; [reflexivity|]. destruct (p (g a)); cbn [app]; rewrite IH; reflexivity. Qed.
Lemma somes_map {A B} (g : A -> B) l : somes (map (fun a => Some (g a)) l) = map g l.
Proof. unfold somes. induction l as [|a l IH]; cbn [map flat_map app]; [reflexivity|]. now rewrite IH. Qed.
Lemma Forall2_map_r {A B} (R : A -> B -> Prop) (f : A -> B) l : (forall a, In a l -> R a (f a)) -> Forall2 R l (map f l).
Proof. induction l as [|a l IH]; cbn [map]; intros H; constructor; [apply H; cbn; tauto|]. apply IH. intros b Hb. apply H. cbn. tauto. Qed.

Section Whole.
Variables (o : ropts) (m : cman).
Hypothesis (Ho : optsWf o) (Hw : mapWf m) (Hts : ~ tsBad o m) (Hlk : ~ linkBad o m).
Let m1 := m1 o m.
Let m2 := m2 o m.
Let m3 := m3 o m.
Let tgt := tgt o m.
Let lnk := lnk o m.
Let keys := keys o.

Lemma keys_ssorted : ssorted keys.
Proof. apply sle_ssorted; [apply strLstSortAsc_sorted|now apply keys_nodup]. Qed.
Lemma fresh_keys : newKeys o m (fresh m2 keys).
Proof.
  split.
  - unfold fresh, ssorted. apply StronglySorted_filter, keys_ssorted.
  - intros x. unfold m2, keys. rewrite fresh_in. split; (intros [H1 H2]; split; [|exact H2]).
    + exists (valOf o x). now apply val_in.
    + destruct H1 as [p H1]. now apply (in_val o Ho x p).
Qed.
Lemma path_nonempty x : In x keys -> isFileLink m x -> fileIn (valOf o x) (strPath (valOf o x)) (strBase (valOf o x)).
Proof.
  intros Hx Hf. pose proof (path_split (valOf o x)) as H. destruct (strPath (valOf o x)) eqn:E; [|exact H]. exfalso. apply Hlk.
  exists x, (valOf o x). split; [now apply val_in|]. tauto.
Qed.
Lemma tgt_base t : In t (cmTargets m) -> mtName t = pgData -> tgt t = moved t (roPg o) (mtFile t).
Proof.
  intros Ht E. destruct (wfIsBase _ Hw t Ht E) as [_ T]. unfold tgt, RemapProof4.tgt. rewrite tgt2_other by assumption. rewrite foldK_other.
  - unfold baseF. rewrite updBy_same by exact E. reflexivity.
  - intros x _. destruct (baseF_keeps o t) as (-> & _). rewrite E. apply pg_under.
Qed.
Lemma tgt_ts t : In t (cmTargets m) -> isTablespace t -> tgt t = tsT o t t.
Proof.
  intros Ht T. unfold tgt, RemapProof4.tgt. rewrite tgt2_ts by assumption. apply foldK_other. intros x _. rewrite tsT_name. now apply (ts_name_not m Hw).
Qed.
Lemma tgt_link t x : In t (cmTargets m) -> mtName t = under pgData x -> tgt t = if in_dec str_dec x keys then setFile (valOf o x) t else t.
Proof.
  intros Ht E. assert (T : ~ isTablespace t) by (intros T; exact (ts_name_not m Hw t x Ht T E)).
  unfold tgt, RemapProof4.tgt. rewrite tgt2_other by assumption. rewrite baseF_other by (rewrite E; intros H; symmetry in H; exact (pg_under _ H)).
  fold keys. destruct (in_dec str_dec x keys) as [H|H].
  - apply foldK_in; [now apply keys_nodup|exact H|exact E].
  - apply foldK_other. intros y Hy E'. rewrite E in E'. apply (slashed_inj pgData) in E'. subst y. tauto.
Qed.
Lemma not_key x : ~ In x keys <-> forall p, ~ In (x, p) (roLink o).
Proof.
  split.
  - intros H p Hp. apply H. now apply (in_val o Ho x p).
  - intros H Hx. exact (H _ (val_in o x Hx)).
Qed.
Definition outT (t : mtarget) : option mtarget := if roLinkAll o || negb (dropT o (tgt t)) then Some (tgt t) else None.
Lemma out_after t : In t (cmTargets m) -> after o t (outT t).
Proof.
  intros Ht. unfold outT. pose proof (dropT_tgt o m Hw t Ht) as Hd. fold tgt in Hd. destruct (str_dec (mtName t) pgData) as [Hb|Hb].
  - replace (dropT o (tgt t)) with false by (symmetry; apply not_true_iff_false; rewrite Hd; tauto). rewrite orb_true_r. rewrite tgt_base by assumption. now apply A_base.
  - destruct (isTs_spec t) as [T|T].
    + replace (dropT o (tgt t)) with false by (symmetry; apply not_true_iff_false; rewrite Hd; tauto). rewrite orb_true_r. rewrite tgt_ts by assumption.
      destruct (wfTablespace _ Hw t Ht T) as (_ & Ef & (n & En) & _). pose proof (path_cases o t n (proj1 Ho) En) as Hp. unfold tsT. rewrite (proj2 (isTs_iff t) T).
      destruct (tablespacePath o t) as [[p|]|e|]; [| | |tauto].
      * rewrite updBy_same by reflexivity. rewrite <- Ef. apply A_ts; auto. apply Hp. reflexivity.
      * apply A_ts_same; tauto.
      * exfalso. apply Hts. destruct Hp as [_ (k1 & k2 & p & q & H)]. left. exists t, k1, k2, p, q. tauto.
    + destruct (wfLink _ Hw t Ht Hb T) as (x & E). destruct (in_dec str_dec x keys) as [Hx|Hx].
      * replace (dropT o (tgt t)) with false.
        2:{ symmetry. apply not_true_iff_false. rewrite Hd. intros (_ & _ & y & E' & Hy). rewrite E in E'. apply (slashed_inj pgData) in E'. subst y. exact (Hy _ (val_in o x Hx)). }
        rewrite orb_true_r, (tgt_link t x) by assumption. destruct (in_dec str_dec x keys); [|tauto]. unfold setFile. destruct (mtFile t) as [f|] eqn:Ef.
        -- apply (A_file o t x (valOf o x) f); auto; [now apply val_in|]. apply path_nonempty; [exact Hx|]. left. now exists t, f.
        -- apply (A_path o t x); auto. now apply val_in.
      * replace (dropT o (tgt t)) with true by (symmetry; apply Hd; repeat split; auto; exists x; split; [exact E|]; now apply not_key).
        rewrite orb_false_r, (tgt_link t x) by assumption. destruct (in_dec str_dec x keys); [tauto|]. destruct (roLinkAll o) eqn:Ea.
        -- apply (A_keep o t x); auto. now apply not_key.
        -- apply (A_drop o t x); auto. now apply not_key.
Qed.
Lemma new_target x : In x (fresh m2 keys) -> newTarget o m x (newT o m2 x).
Proof.
  intros Hx. unfold m2, keys in Hx. apply fresh_in in Hx. destruct Hx as [Hk Hx]. unfold newTarget, m2. destruct (newT_keeps o m x) as (E1 & E2 & E3 & E4).
  repeat split; auto. exists (valOf o x). split; [now apply val_in|].
  unfold newT. change (cmFiles (RemapProof4.m2 o m)) with (cmFiles m). destruct (isSome (findPath (cmFiles m) (slashed pgData x))) eqn:EF; unfold setFile; cbn [mtFile].
  - right. apply findPath_named in EF. split; [exact EF|]. eexists. split; [reflexivity|]. cbn [setTarget mtPath]. apply path_nonempty; [exact Hk|]. right. tauto.
  - left. apply findPath_false in EF. split; [|split; reflexivity]. apply findPath_named. destruct (isSome (findPath (cmPaths m) (under pgData x))) eqn:EP; [reflexivity|].
    apply findPath_false in EP. exfalso. apply Hlk. exists x, (valOf o x). split; [now apply val_in|]. left. tauto.
Qed.
Lemma new_link x : In x (fresh m2 keys) -> newLink o m x (newL o m2 x).
Proof.
  intros Hx. unfold m2, keys in Hx. apply fresh_in in Hx. destruct Hx as [Hk Hx]. unfold newLink, m2, newL. change (cmPaths (RemapProof4.m2 o m)) with (cmPaths m).
  cbn [mlName mlDestination mlUser mlGroup]. split; [reflexivity|]. split; [now apply val_in|].
  pose proof (wfBasePath _ Hw) as Hb. apply findPath_named in Hb. unfold findPath in *. pose proof (find_key mpName pgData (cmPaths m)) as Hf.
  destruct (find _ (cmPaths m)) as [b|]; [|discriminate]. exists b. tauto.
Qed.
Lemma ts_not_key t : In t (cmTargets m) -> isTablespace t -> ~ In (mtName t) keys.
Proof.
  intros Ht T Hk.
  assert (Hb : mtName t <> pgData) by (intros E; exact (proj2 (wfIsBase _ Hw t Ht E) T)).
  assert (Hn : ~ isTarget m (mtName t)).
  { intros (u & Hu & Eu). assert (Tu : ~ isTablespace u) by (intros Tu; exact (ts_name_not m Hw u _ Hu Tu Eu)).
    assert (Hbu : mtName u <> pgData) by (rewrite Eu; intros H; symmetry in H; exact (pg_under _ H)).
    apply Tu. rewrite (wfOneTarget _ Hw u t (mtName u) Hu Ht Hbu Hb); [exact T| |]; [right; tauto|left; tauto]. }
  apply Hlk. exists (mtName t), (valOf o (mtName t)). split; [now apply val_in|]. left. split; [exact Hn|]. apply (wfTablespace _ Hw t Ht T).
Qed.
Lemma lnk_ts k t : In t (cmTargets m) -> isTablespace t -> mlName k = under pgData (mtName t) -> lnk k = tsL o t k.
Proof.
  intros Ht T E. unfold lnk, RemapProof4.lnk. rewrite foldKL_other.
  - apply foldL_in; [now apply m1_nodup|now apply m1_in|exact E].
  - intros x Hx. rewrite foldL_name, E. intros E'. apply (slashed_inj pgData) in E'. subst x. exact (ts_not_key t Ht T Hx).
Qed.
Lemma lnk_link k t x : In t (cmTargets m) -> mtName t = under pgData x -> mlName k = mtName t ->
  lnk k = if in_dec str_dec x keys then setLink (valOf o x) k else k.
Proof.
  intros Ht E Ek. assert (T : ~ isTablespace t) by (intros T; exact (ts_name_not m Hw t x Ht T E)).
  assert (Hb : mtName t <> pgData) by (rewrite E; intros H; symmetry in H; exact (pg_under _ H)).
  unfold lnk, RemapProof4.lnk. rewrite foldL_other.
  - fold keys. destruct (in_dec str_dec x keys) as [H|H].
    + apply foldKL_in; [now apply keys_nodup|exact H|rewrite Ek; exact E].
    + apply foldKL_other. intros y Hy E'. rewrite Ek, E in E'. apply (slashed_inj pgData) in E'. subst y. tauto.
  - intros u Hu Tu E'. apply (m1_ts o m Hw) in Hu; [|exact Tu].
    assert (Hbu : mtName u <> pgData) by (intros Eu; exact (proj2 (wfIsBase _ Hw u Hu Eu) Tu)).
    apply T. rewrite (wfOneTarget _ Hw t u (mlName k) Ht Hu Hb Hbu); [exact Tu| |]; [right; tauto|left; split; [exact Tu|exact E']].
Qed.
Lemma dropsL_iff k t : In t (cmTargets m) -> mtName t <> pgData -> linkOf t (mlName k) -> dropsL o (cmTargets m3) k = dropT o (tgt t).
Proof.
  intros Ht Hb Hl. apply eq_true_iff_eq. unfold dropsL. rewrite existsb_exists. split.
  - intros (u & Hu & H). apply andb_true_iff in H. destruct H as [Hd E]. apply strEqb_eq in E. unfold m3 in Hu. rewrite m3_targets, in_app_iff in Hu.
    destruct Hu as [Hu|Hu]; apply in_map_iff in Hu.
    + destruct Hu as (t' & <- & Ht'). pose proof (proj1 (dropT_tgt o m Hw t' Ht') Hd) as (Hb' & T' & _).
      destruct (tgt_keeps o m Hw t' Ht') as (En & _). rewrite En in E.
      rewrite (wfOneTarget _ Hw t t' (mlName k) Ht Ht' Hb Hb' Hl); [exact Hd|]. right. auto.
    + destruct Hu as (x & <- & Hx). apply fresh_in in Hx. rewrite newT_kept in Hd; [discriminate|apply Hx].
  - intros Hd. pose proof (proj1 (dropT_tgt o m Hw t Ht) Hd) as (_ & T & _). exists (tgt t). split.
    + unfold m3. rewrite m3_targets, in_app_iff. left. now apply in_map.
    + rewrite Hd. cbn [andb]. apply strEqb_eq. unfold tgt. destruct (tgt_keeps o m Hw t Ht) as (-> & _). destruct Hl as [[H _]|[_ H]]; [tauto|auto].
Qed.
Definition outL (k : mlink) : option mlink := if roLinkAll o || negb (dropsL o (cmTargets m3) k) then Some (lnk k) else None.
Lemma out_afterL k : In k (cmLinks m) -> afterLink o m k (outL k).
Proof.
  intros Hk. destruct (wfHasTarget _ Hw k Hk) as (t & Ht & Hb & Hl). exists t. split; [exact Ht|]. split; [exact Hb|]. split; [exact Hl|].
  unfold outL. rewrite (dropsL_iff k t) by assumption. pose proof (out_after t Ht) as Ha. unfold outT in Ha. destruct (roLinkAll o || negb (dropT o (tgt t))) eqn:Ec; [|exact Ha].
  assert (En : mlName (lnk k) = mlName k).
  { unfold lnk, RemapProof4.lnk. now rewrite foldKL_name, foldL_name. }
  split; [exact En|].
  destruct Hl as [[T E]|[T E]].
  - rewrite (lnk_ts k t) by assumption. destruct (wfTablespace _ Hw t Ht T) as (_ & Ef & (n & Enm) & _). pose proof (path_cases o t n (proj1 Ho) Enm) as Hp.
    unfold tsL. rewrite (proj2 (isTs_iff t) T). destruct (tablespacePath o t) as [[p|]|e|]; [| | |tauto].
    + rewrite updBy_same by exact E. cbn [setLink mlName mlUser mlGroup mlDestination]. split; [reflexivity|]. split; [reflexivity|]. left. split; [exact T|]. apply Hp. reflexivity.
    + split; [reflexivity|]. split; [reflexivity|]. right. left. tauto.
    + exfalso. apply Hts. destruct Hp as [_ (k1 & k2 & p & q & H)]. left. exists t, k1, k2, p, q. tauto.
  - destruct (wfLink _ Hw t Ht Hb T) as (x & Ex). rewrite (lnk_link k t x) by assumption. destruct (in_dec str_dec x keys) as [Hx|Hx].
    + cbn [setLink mlName mlUser mlGroup mlDestination]. split; [reflexivity|]. split; [reflexivity|]. right. right. split; [exact T|]. exists x. split; [exact Ex|]. left.
      now apply val_in.
    + split; [reflexivity|]. split; [reflexivity|]. right. right. split; [exact T|]. exists x. split; [exact Ex|]. right. split; [now apply not_key|]. split; [|reflexivity].
      replace (dropT o (tgt t)) with true in Ec; [rewrite orb_false_r in Ec; exact Ec|]. symmetry. apply (dropT_tgt o m Hw t Ht). repeat split; auto. exists x. split; [exact Ex|].
      now apply not_key.
Qed.
Lemma filter_true {A} (p : A -> bool) l : (forall a, In a l -> p a = true) -> filter p l = l.
Proof. apply filter_all. Qed.
Lemma result_mapped : mapped o m (result o m).
Proof.
  split; [unfold result; destruct (roLinkAll o); reflexivity|]. split; [unfold result; destruct (roLinkAll o); reflexivity|].
  exists (fresh m2 keys). split; [apply fresh_keys|]. split.
  - exists (map outT (cmTargets m)), (map (newT o m2) (fresh m2 keys)).
    split; [apply Forall2_map_r; apply out_after|]. split; [apply Forall2_map_r; apply new_target|]. unfold result, outT. destruct (roLinkAll o); cbn [orb].
    + rewrite somes_map. apply m3_targets.
    + cbn [RemapProof4.m4 cmTargets]. rewrite m3_targets, filter_app, filter_somes. fold keys m2 tgt. f_equal. apply filter_true. intros u Hu. apply in_map_iff in Hu.
      destruct Hu as (x & <- & Hx). unfold m2, keys in *. apply fresh_in in Hx. rewrite newT_kept; [reflexivity|apply Hx].
  - exists (map outL (cmLinks m)), (map (newL o m2) (fresh m2 keys)).
    split; [apply Forall2_map_r; apply out_afterL|]. split; [apply Forall2_map_r; apply new_link|]. unfold result, outL. destruct (roLinkAll o); cbn [orb].
    + rewrite somes_map. apply m3_links.
    + cbn [RemapProof4.m4 cmLinks]. rewrite m3_links, filter_app, filter_somes. fold keys m2 lnk m3. f_equal.
      * f_equal. apply map_ext. intros k. replace (dropsL o (cmTargets m3) (lnk k)) with (dropsL o (cmTargets m3) k); [reflexivity|].
        unfold dropsL. unfold lnk, RemapProof4.lnk. rewrite foldKL_name, foldL_name. reflexivity.
      * apply filter_true. intros k Hk. apply in_map_iff in Hk. destruct Hk as (x & <- & Hx). apply negb_true_iff, not_true_iff_false. unfold dropsL. rewrite existsb_exists.
        intros (u & Hu & H). apply andb_true_iff in H. destruct H as [Hd E]. apply strEqb_eq in E. cbn [newL mlName] in E. unfold m3 in Hu. rewrite m3_targets, in_app_iff in Hu.
        unfold m2, keys in Hx. apply fresh_in in Hx. destruct Hu as [Hu|Hu]; apply in_map_iff in Hu.
        -- destruct Hu as (t & <- & Ht). destruct (tgt_keeps o m Hw t Ht) as (En & _). rewrite En in E. apply (proj2 Hx). now exists t.
        -- destruct Hu as (y & <- & Hy). apply fresh_in in Hy. rewrite newT_kept in Hd; [discriminate|apply Hy].
Qed.
End Whole.
