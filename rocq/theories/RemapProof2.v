(** Tablespaces *)
From Verif Require Import Base Str NumModel ManifestPackModel ManifestModel LinkCheckModel CleanModel RemapModel RemapSpec RemapProof.
From Coq Require Import Sorted.
Open Scope Z_scope.

Definition isTs (t : mtarget) : bool := negb (mtTablespaceId t =? 0).
Lemma isTs_iff t : isTs t = true <-> isTablespace t.
Proof. unfold isTs, isTablespace. destruct (Z.eqb_spec (mtTablespaceId t) 0); cbn; split; intros; try congruence; try tauto. Qed.
Lemma isTs_spec t : reflect (isTablespace t) (isTs t).
Proof. apply iff_reflect. symmetry. apply isTs_iff. Qed.

Definition tsT (o : ropts) (t : mtarget) (u : mtarget) : mtarget :=
  if isTs t then match tablespacePath o t with Ok (Some p) => updBy mtName (mtName t) (setTarget p None) u | _ => u end else u.
Definition tsL (o : ropts) (t : mtarget) (k : mlink) : mlink :=
  if isTs t then match tablespacePath o t with Ok (Some p) => updBy mlName (slashed pgData (mtName t)) (setLink p) k | _ => k end else k.
Definition foldT (o : ropts) (todo : list mtarget) (u : mtarget) : mtarget := fold_left (fun u t => tsT o t u) todo u.
Definition foldL (o : ropts) (todo : list mtarget) (k : mlink) : mlink := fold_left (fun k t => tsL o t k) todo k.
Definition used (o : ropts) (todo : list mtarget) : list str := flat_map (fun t => if isTs t then remapped o t else []) todo.

Lemma tsT_name o t u : mtName (tsT o t u) = mtName u.
Proof. unfold tsT. destruct (isTs t); [|reflexivity]. destruct (tablespacePath o t) as [[p|]| |]; try reflexivity. now apply updBy_key. Qed.
Lemma tsL_name o t k : mlName (tsL o t k) = mlName k.
Proof. unfold tsL. destruct (isTs t); [|reflexivity]. destruct (tablespacePath o t) as [[p|]| |]; try reflexivity. now apply updBy_key. Qed.
Lemma map_name_ext {A} (key : A -> str) f l : (forall a, key (f a) = key a) -> map key (map f l) = map key l.
Proof. intros H. rewrite map_map. apply map_ext. exact H. Qed.

Definition goodTs (ts : list str) (ls : list str) (t : mtarget) : Prop :=
  isTablespace t -> In (mtName t) ts /\ In (slashed pgData (mtName t)) ls.
Lemma mapTablespaces_ok o : forall todo m done,
  NoDup (map mtName (cmTargets m)) -> NoDup (map mlName (cmLinks m)) ->
  (forall t, In t todo -> goodTs (map mtName (cmTargets m)) (map mlName (cmLinks m)) t) ->
  (forall t, In t todo -> isTablespace t -> exists p, tablespacePath o t = Ok p) ->
  mapTablespaces o todo m done =
    Ok (mkCman (map (foldT o todo) (cmTargets m)) (cmPaths m) (map (foldL o todo) (cmLinks m)) (cmFiles m), done ++ used o todo).
Proof.
  induction todo as [|t todo IH]; intros m done Hn Hl Hg Hp; cbn [mapTablespaces].
  - unfold foldT, foldL. cbn [fold_left]. rewrite !map_id, app_nil_r, cman_eta. reflexivity.
  - fold (isTs t). unfold foldT, foldL, used. cbn [fold_left flat_map].
    assert (Hstep : forall m', cmPaths m' = cmPaths m -> cmFiles m' = cmFiles m -> cmTargets m' = map (tsT o t) (cmTargets m) ->
      cmLinks m' = map (tsL o t) (cmLinks m) -> forall d, mapTablespaces o todo m' d =
      Ok (mkCman (map (fun u => fold_left (fun u t => tsT o t u) todo (tsT o t u)) (cmTargets m)) (cmPaths m)
                 (map (fun k => fold_left (fun k t => tsL o t k) todo (tsL o t k)) (cmLinks m)) (cmFiles m), d ++ used o todo)).
    { intros m' E1 E2 E3 E4 d. rewrite IH.
      - rewrite E1, E2, E3, E4, !map_map. reflexivity.
      - rewrite E3, map_name_ext; [exact Hn|]. intros. apply tsT_name.
      - rewrite E4, map_name_ext; [exact Hl|]. intros. apply tsL_name.
      - intros u Hu. rewrite E3, E4, !map_name_ext by (intros; (apply tsT_name || apply tsL_name)). apply Hg. cbn. tauto.
      - intros u Hu. apply Hp. cbn. tauto. }
    destruct (isTs_spec t) as [Ht|Ht].
    + destruct (Hp t) as [p Ep]; [cbn; tauto|exact Ht|]. rewrite Ep. cbn [bind]. destruct p as [p|].
      * destruct (Hg t) as [G1 G2]; [cbn; tauto|exact Ht|]. rewrite tUpdate by assumption. cbn [bind].
        rewrite lUpdate by (cbn [cmLinks withTargets]; assumption). cbn [bind].
        rewrite Hstep; try reflexivity; cbn [cmTargets cmLinks withTargets withLinks].
        -- f_equal. f_equal. rewrite <- app_assoc. reflexivity.
        -- apply map_ext. intros u. unfold tsT. rewrite (proj2 (isTs_iff t) Ht), Ep. reflexivity.
        -- apply map_ext. intros u. unfold tsL. rewrite (proj2 (isTs_iff t) Ht), Ep. reflexivity.
      * cbn [bind]. rewrite Hstep; try reflexivity.
        -- f_equal. f_equal. rewrite <- app_assoc. reflexivity.
        -- rewrite <- (map_id (cmTargets m)) at 1. apply map_ext. intros u. unfold tsT. rewrite (proj2 (isTs_iff t) Ht), Ep. reflexivity.
        -- rewrite <- (map_id (cmLinks m)) at 1. apply map_ext. intros u. unfold tsL. rewrite (proj2 (isTs_iff t) Ht), Ep. reflexivity.
    + assert (E : isTs t = false) by (destruct (isTs_spec t); tauto). rewrite Hstep; try reflexivity.
      * rewrite <- (map_id (cmTargets m)) at 1. apply map_ext. intros u. unfold tsT. rewrite E. reflexivity.
      * rewrite <- (map_id (cmLinks m)) at 1. apply map_ext. intros u. unfold tsL. rewrite E. reflexivity.
Qed.
Lemma mapTablespaces_err o : forall todo m done,
  NoDup (map mtName (cmTargets m)) -> NoDup (map mlName (cmLinks m)) ->
  (forall t, In t todo -> goodTs (map mtName (cmTargets m)) (map mlName (cmLinks m)) t) ->
  (forall t, In t todo -> isTablespace t -> (exists p, tablespacePath o t = Ok p) \/ tablespacePath o t = Err EOther) ->
  (exists t, In t todo /\ isTablespace t /\ tablespacePath o t = Err EOther) -> mapTablespaces o todo m done = Err EOther.
Proof.
  induction todo as [|t todo IH]; intros m done Hn Hl Hg Hp (b & Hb & Hbt & Eb); [destruct Hb|]. cbn [mapTablespaces]. fold (isTs t).
  destruct (isTs_spec t) as [Ht|Ht].
  - destruct (Hp t) as [[p Ep]|Ep]; [cbn; tauto|exact Ht| |]; rewrite Ep; cbn [bind]; [|reflexivity].
    assert (Hb' : In b todo) by (destruct Hb as [<-|Hb]; [congruence|exact Hb]).
    destruct p as [p|].
    + destruct (Hg t) as [G1 G2]; [cbn; tauto|exact Ht|]. rewrite tUpdate by assumption. cbn [bind].
      rewrite lUpdate by (cbn [cmLinks withTargets]; assumption). cbn [bind]. apply IH; cbn [cmTargets cmLinks withTargets withLinks].
      * rewrite map_name_ext; [exact Hn|]. intros. now apply updBy_key.
      * rewrite map_name_ext; [exact Hl|]. intros. now apply updBy_key.
      * intros u Hu. rewrite !map_name_ext by (intros; now apply updBy_key). apply Hg. cbn. tauto.
      * intros u Hu. apply Hp. cbn. tauto.
      * now exists b.
    + cbn [bind]. apply IH; auto; [| |now exists b]; intros u Hu; [apply Hg|apply Hp]; cbn; tauto.
  - apply IH; auto; try (intros u Hu; first [apply Hg|apply Hp]; cbn; tauto).
    exists b. split; [|tauto]. destruct Hb as [<-|Hb]; [tauto|exact Hb].
Qed.

(** Whether a path is found *)
Lemma byName_in o t p : NoDup (map fst (roTablespace o)) -> byName o t = Some p <-> exists n, mtTablespaceName t = Some n /\ In (n, p) (roTablespace o).
Proof.
  intros Hn. unfold byName. destruct (mtTablespaceName t) as [n|]; split.
  - intros H. exists n. split; [reflexivity|]. now apply kvGet_in.
  - intros (n' & E & H). injection E as <-. now apply kvGet_some.
  - discriminate.
  - intros (n & E & _). discriminate.
Qed.
Lemma byId_in o t p : NoDup (map fst (roTablespace o)) -> byId o t = Some p <-> In (cvtUIntToZ (mtTablespaceId t), p) (roTablespace o).
Proof. intros Hn. unfold byId. split; [apply kvGet_in|now apply kvGet_some]. Qed.
Lemma byName_none o t : byName o t = None -> forall n p, mtTablespaceName t = Some n -> ~ In (n, p) (roTablespace o).
Proof. unfold byName. intros H n p E. rewrite E in H. now apply kvGet_none. Qed.
Lemma byId_none o t : byId o t = None -> forall p, ~ In (cvtUIntToZ (mtTablespaceId t), p) (roTablespace o).
Proof. unfold byId. intros H p. now apply kvGet_none. Qed.

Definition conflict (o : ropts) (t : mtarget) : Prop :=
  exists k1 k2 p q, keyOf t k1 /\ keyOf t k2 /\ In (k1, p) (roTablespace o) /\ In (k2, q) (roTablespace o) /\ p <> q.
Lemma in_fun {l : list (str * str)} {k v w} : NoDup (map fst l) -> In (k, v) l -> In (k, w) l -> v = w.
Proof. intros Hn H1 H2. pose proof (kvGet_some _ _ _ Hn H1). pose proof (kvGet_some _ _ _ Hn H2). congruence. Qed.
Lemma path_cases o t n : NoDup (map fst (roTablespace o)) -> mtTablespaceName t = Some n ->
  match tablespacePath o t with
  | Ok (Some p) => ~ conflict o t /\ forall q, tsMapped o t q <-> q = p
  | Ok None => ~ conflict o t /\ forall q, ~ tsMapped o t q
  | Err e => e = EOther /\ conflict o t
  | UB => False
  end.
Proof.
  intros Hn En. unfold tablespacePath.
  assert (Hk : forall k, keyOf t k -> k = n \/ k = cvtUIntToZ (mtTablespaceId t)).
  { intros k [H|H]; [left; congruence|right; exact H]. }
  assert (K1 : keyOf t n) by (left; exact En). assert (K2 : keyOf t (cvtUIntToZ (mtTablespaceId t))) by (right; reflexivity).
  destruct (byName o t) as [a|] eqn:Ea; destruct (byId o t) as [b|] eqn:Eb.
  - apply byName_in in Ea; [|exact Hn]. destruct Ea as (n' & En' & Ha). assert (n' = n) by congruence. subst n'. apply byId_in in Eb; [|exact Hn].
    destruct (strEqb_spec a b) as [<-|Hne]; cbn [bind].
    + assert (Hu : forall k q, keyOf t k -> In (k, q) (roTablespace o) -> q = a).
      { intros k q Hkey Hin. destruct (Hk k Hkey) as [-> | ->]; [exact (in_fun Hn Hin Ha)|exact (in_fun Hn Hin Eb)]. }
      split.
      * intros (k1 & k2 & p & q & H1 & H2 & H3 & H4 & H5). apply H5. rewrite (Hu _ _ H1 H3), (Hu _ _ H2 H4). reflexivity.
      * intros q. split.
        -- intros [(k & H1 & H2)|(H1 & _)]; [exact (Hu _ _ H1 H2)|]. exfalso. exact (H1 n a K1 Ha).
        -- intros ->. left. now exists n.
    + split; [reflexivity|]. exists n, (cvtUIntToZ (mtTablespaceId t)), a, b. tauto.
  - apply byName_in in Ea; [|exact Hn]. destruct Ea as (n' & En' & Ha). assert (n' = n) by congruence. subst n'. pose proof (byId_none _ _ Eb) as Hb.
    cbn [bind].
    assert (Hu : forall k q, keyOf t k -> In (k, q) (roTablespace o) -> q = a).
    { intros k q Hkey Hin. destruct (Hk k Hkey) as [-> | ->]; [exact (in_fun Hn Hin Ha)|]. exfalso. exact (Hb _ Hin). }
    split.
    + intros (k1 & k2 & p & q & H1 & H2 & H3 & H4 & H5). apply H5. rewrite (Hu _ _ H1 H3), (Hu _ _ H2 H4). reflexivity.
    + intros q. split.
      * intros [(k & H1 & H2)|(H1 & _)]; [exact (Hu _ _ H1 H2)|]. exfalso. exact (H1 n a K1 Ha).
      * intros ->. left. now exists n.
  - apply byId_in in Eb; [|exact Hn]. pose proof (byName_none _ _ Ea) as Ha. cbn [bind].
    assert (Hu : forall k q, keyOf t k -> In (k, q) (roTablespace o) -> q = b).
    { intros k q Hkey Hin. destruct (Hk k Hkey) as [-> | ->]; [|exact (in_fun Hn Hin Eb)]. exfalso. exact (Ha _ _ En Hin). }
    split.
    + intros (k1 & k2 & p & q & H1 & H2 & H3 & H4 & H5). apply H5. rewrite (Hu _ _ H1 H3), (Hu _ _ H2 H4). reflexivity.
    + intros q. split.
      * intros [(k & H1 & H2)|(H1 & _)]; [exact (Hu _ _ H1 H2)|]. exfalso. exact (H1 _ _ K2 Eb).
      * intros ->. left. eexists. split; [exact K2|exact Eb].
  - pose proof (byName_none _ _ Ea) as Ha. pose proof (byId_none _ _ Eb) as Hb. cbn [bind].
    assert (Hu : forall k q, keyOf t k -> ~ In (k, q) (roTablespace o)).
    { intros k q Hkey Hin. destruct (Hk k Hkey) as [-> | ->]; [exact (Ha _ _ En Hin)|exact (Hb _ Hin)]. }
    assert (Hc : ~ conflict o t).
    { intros (k1 & k2 & p & q & H1 & H2 & H3 & H4 & H5). exact (Hu _ _ H1 H3). }
    destruct (roAll o) as [all|] eqn:Eall.
    + rewrite En. split; [exact Hc|]. intros q. split.
      * intros [(k & H1 & H2)|(_ & a & n' & E1 & E2 & ->)]; [exfalso; exact (Hu _ _ H1 H2)|]. rewrite Eall in E1. injection E1 as <-.
        rewrite En in E2. injection E2 as <-. reflexivity.
      * intros ->. right. split; [exact Hu|]. exists all, n. auto.
    + split; [exact Hc|]. intros q [(k & H1 & H2)|(_ & a & n' & E1 & E2 & ->)]; [exact (Hu _ _ H1 H2)|congruence].
Qed.
Lemma used_in o todo k : NoDup (map fst (roTablespace o)) ->
  In k (used o todo) <-> exists t p, In t todo /\ isTablespace t /\ keyOf t k /\ In (k, p) (roTablespace o).
Proof.
  intros Hn. unfold used. rewrite in_flat_map. split.
  - intros (t & Ht & Hk). destruct (isTs_spec t) as [T|T]; [|destruct Hk]. unfold remapped in Hk. apply in_app_iff in Hk. destruct Hk as [Hk|Hk].
    + destruct (byName o t) as [p|] eqn:E; cbn [isSome] in Hk; [|destruct Hk]. apply byName_in in E; [|exact Hn]. destruct E as (n & En & Hin).
      rewrite En in Hk. destruct Hk as [<-|[]]. exists t, p. unfold keyOf. tauto.
    + destruct (byId o t) as [p|] eqn:E; cbn [isSome] in Hk; [|destruct Hk]. apply byId_in in E; [|exact Hn]. destruct Hk as [<-|[]].
      exists t, p. unfold keyOf. tauto.
  - intros (t & p & Ht & T & Hk & Hin). exists t. split; [exact Ht|]. destruct (isTs_spec t) as [_|]; [|tauto]. unfold remapped. apply in_app_iff.
    destruct Hk as [Hk| ->].
    + left. rewrite (proj2 (byName_in o t p Hn)) by (exists k; tauto). rewrite Hk. cbn. tauto.
    + right. rewrite (proj2 (byId_in o t p Hn) Hin). cbn. tauto.
Qed.
Lemma mapTablespace_cases o m : NoDup (map fst (roTablespace o)) -> NoDup (map mtName (cmTargets m)) -> NoDup (map mlName (cmLinks m)) ->
  (forall t, In t (cmTargets m) -> isTablespace t -> In (slashed pgData (mtName t)) (map mlName (cmLinks m)) /\ exists n, mtTablespaceName t = Some n) ->
  (~ tsBad o m /\ mapTablespace o m =
     Ok (mkCman (map (foldT o (cmTargets m)) (cmTargets m)) (cmPaths m) (map (foldL o (cmTargets m)) (cmLinks m)) (cmFiles m))) \/
  (tsBad o m /\ mapTablespace o m = Err EOther).
Proof.
  intros Hk Hn Hl Hg.
  assert (G : forall t, In t (cmTargets m) -> goodTs (map mtName (cmTargets m)) (map mlName (cmLinks m)) t).
  { intros t Ht T. split; [now apply in_map|]. exact (proj1 (Hg t Ht T)). }
  assert (C : forall t, In t (cmTargets m) -> isTablespace t -> ((exists p, tablespacePath o t = Ok p) /\ ~ conflict o t) \/ (tablespacePath o t = Err EOther /\ conflict o t)).
  { intros t Ht T. destruct (Hg t Ht T) as (_ & n & En). pose proof (path_cases o t n Hk En) as H.
    destruct (tablespacePath o t) as [[p|]|e|]; [left|left|right|tauto]; try (split; [eauto|tauto]). destruct H as [-> H]. tauto. }
  assert (D : (forall t, In t (cmTargets m) -> isTablespace t -> exists p, tablespacePath o t = Ok p) \/
    exists t, In t (cmTargets m) /\ isTablespace t /\ tablespacePath o t = Err EOther).
  { revert C. generalize (cmTargets m). clear. induction l as [|t l IH]; intros C; [left; intros ? []|].
    destruct IH as [IH|(u & H1 & H2)]; [intros u Hu; apply C; cbn; tauto| |right; exists u; cbn; tauto].
    destruct (isTs_spec t) as [T|T].
    - destruct (C t) as [[Hp _]|[Hp _]]; [cbn; tauto|exact T| |].
      + left. intros u [<-|Hu]; [intros _; exact Hp|now apply IH].
      + right. exists t. cbn. tauto.
    - left. intros u [<-|Hu] Tu; [tauto|now apply IH]. }
  unfold mapTablespace. destruct D as [D|D].
  - rewrite mapTablespaces_ok by assumption. cbn [bind app]. destruct (forallb _ (roTablespace o)) eqn:F.
    + left. split; [|reflexivity]. rewrite forallb_forall in F. intros [(t & k1 & k2 & p & q & Ht & T & Hc)|(k & p & Hin & Hno)].
      * destruct (C t Ht T) as [[_ H]|[H _]]; [|destruct (D t Ht T); congruence]. apply H. now exists k1, k2, p, q.
      * specialize (F _ Hin). apply strLstExists_in in F. cbn [fst] in F. apply used_in in F; [|exact Hk]. destruct F as (t & p' & H1 & H2 & H3 & _).
        exact (Hno t H1 H2 H3).
    + right. split; [|reflexivity]. right.
      assert (E : exists kp, In kp (roTablespace o) /\ strLstExists (used o (cmTargets m)) (fst kp) = false).
      { revert F. generalize (roTablespace o). clear. intros l. generalize (used o (cmTargets m)). intros w. induction l as [|a l IH]; cbn [forallb]; [discriminate|].
        destruct (strLstExists w (fst a)) eqn:E; cbn [andb].
        - intros F. destruct (IH F) as (b & H1 & H2). exists b. cbn. tauto.
        - intros _. exists a. cbn. tauto. }
      destruct E as ([k p] & Hin & E). cbn [fst] in E. exists k, p. split; [exact Hin|]. intros t Ht T K.
      assert (Hu : In k (used o (cmTargets m))) by (apply used_in; [exact Hk|]; exists t, p; tauto). apply strLstExists_in in Hu. congruence.
  - right. split.
    + left. destruct D as (t & Ht & T & E). destruct (C t Ht T) as [[[p H] _]|[_ (k1 & k2 & p & q & H)]]; [congruence|]. exists t, k1, k2, p, q. tauto.
    + rewrite mapTablespaces_err; auto. intros t Ht T. destruct (C t Ht T); tauto.
Qed.
