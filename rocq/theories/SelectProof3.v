(** The whole of selective restore. *)
From Coq Require Import String Sorted Permutation.
From Verif Require Import Base Str ConvertModel NumModel NumSpec ArchiveIdModel RegModel RegSpec RegNameModel RegProof2 ManifestPackModel ManifestModel
  LinkCheckModel LinkCheckProof2 SpoolModel SpoolProof SelectModel SelectSpec SelectProof SelectProof2.
Open Scope Z_scope.
Open Scope list_scope.

Lemma systemDb_spec d : pgDbIsSystem (mdName d) || pgDbIsSystemId (mdId d) = true <-> systemDb d.
Proof.
  unfold systemDb, pgDbIsSystem, pgDbIsTemplate, pgDbIsSystemId. rewrite !orb_true_iff, !strEqb_eq, Z.ltb_lt. cbn [In]. intuition.
Qed.

Lemma endsVersion f : strEndsWith f (txt "/PG_VERSION") = true <-> isVersionName f.
Proof.
  unfold strEndsWith, isVersionName. split.
  - intros H. apply andb_prop in H. destruct H as [_ H]. apply strEqb_eq in H. exists (firstn (length f - length (txt "/PG_VERSION")) f). rewrite <- H at 2. now rewrite firstn_skipn.
  - intros (p & ->). rewrite app_length. replace (length p + length (txt "/PG_VERSION") - length (txt "/PG_VERSION"))%nat with (length p) by lia.
    rewrite skipn_app, skipn_all, Nat.sub_diag. cbn [skipn app]. rewrite strEqb_refl, andb_true_r. apply Nat.leb_le. lia.
Qed.

Section Select.
  Variables (dbs : list mdb) (files : list str) (targets : list mtarget) (ver cat : Z).
  Hypotheses (Hver : 0 <= ver < 2 ^ 32) (Hcat : 0 <= cat < 2 ^ 32).
  Let tid := pgTablespaceId ver cat.
  Hypothesis HS : sound dbs files tid targets.
  Let F := dbFound dbs files tid.
  Let den := denotes dbs files tid.

  Lemma systemDbs_in d : In d (systemDbs dbs) <-> exists db, In db dbs /\ systemDb db /\ d = cvtUIntToZ (mdId db).
  Proof.
    unfold systemDbs. rewrite in_map_iff. split.
    - intros (db & <- & H). apply filter_In in H. destruct H as [H1 H2]. apply systemDb_spec in H2. eauto.
    - intros (db & H1 & H2 & ->). exists db. split; [reflexivity|]. apply filter_In. split; [exact H1 | apply systemDb_spec, H2].
  Qed.
  Lemma systemDbs_nodup : NoDup (systemDbs dbs).
  Proof.
    unfold systemDbs. pose proof (sdIdNoDup _ _ _ _ HS) as N. pose proof (sdIds _ _ _ _ HS) as I. clear -N I. induction dbs as [| d r IH]; [constructor|]. cbn [filter]. inversion N as [| ? ? Hi Hn]; subst.
    assert (IH' := IH Hn ltac:(intros; apply I; now right)). destruct (pgDbIsSystem (mdName d) || pgDbIsSystemId (mdId d)); [| exact IH']. cbn [map]. constructor; [| exact IH'].
    intros H. apply in_map_iff in H. destruct H as (e & E & He). apply filter_In in He. destruct He as [He _]. apply Hi. apply in_map_iff. exists e. split; [| exact He].
    apply uint_inj; [apply I; now right | apply I; now left | exact E].
  Qed.
  Lemma found_id d : F d -> isId d.
  Proof. intros [(db & H1 & _ & ->) | (f & _ & H)]; [apply uint_id, (sdIds _ _ _ _ HS), H1 | apply H]. Qed.
  Lemma system_found d : dbSystem dbs files tid d -> F d.
  Proof. intros [(db & H) | (f & v & H1 & H2 & _)]; [left; eauto | right; eauto]. Qed.
  Lemma found_dec L d : (forall x, In x L <-> F x) -> {F d} + {~ F d}.
  Proof. intros HL. destruct (in_dec str_dec d L) as [H | H]; [left; now apply HL | right; intros X; apply H, HL, X]. Qed.

  Lemma dbFind_spec x : match manifestDbFind dbs x with Some db => In db dbs /\ mdName db = x | None => forall db, In db dbs -> mdName db <> x end.
  Proof.
    unfold manifestDbFind. destruct (List.find (fun d => strEqb (mdName d) x) dbs) as [db |] eqn:E.
    - apply List.find_some in E. destruct E as [E1 E2]. apply strEqb_eq in E2. auto.
    - intros db H. pose proof (List.find_none _ _ E db H) as N. cbn beta in N. now apply strEqb_neq in N.
  Qed.
  Lemma name_unique a b : In a dbs -> In b dbs -> mdName a = mdName b -> a = b.
  Proof.
    pose proof (sdNameNoDup _ _ _ _ HS) as N. clear -N. induction dbs as [| d r IH]; [intros []|]. inversion N as [| ? ? Hi Hn]; subst. intros [<- | Ha] [<- | Hb] E; auto.
    - destruct Hi. apply in_map_iff. eauto.
    - destruct Hi. apply in_map_iff. eauto.
  Qed.
  Lemma denotes_det x d e : den x d -> den x e -> d = e.
  Proof.
    intros [[H1 ->] | (H1 & db & A1 & A2 & A3 & _)] [[H2 ->] | (H2 & db' & B1 & B2 & B3 & _)]; try contradiction; [reflexivity|].
    rewrite (name_unique db db' A1 B1) in A3 by congruence. congruence.
  Qed.
  Lemma denotes_found x d : den x d -> F d.
  Proof. intros [[H ->] | (_ & db & _ & _ & _ & H)]; exact H. Qed.

  (** Resolving in a list with some of the databases found *)
  Lemma resolve_ok L x d : (forall y, In y L -> F y) -> resolveDb dbs L x = Ok d <-> den x d /\ In d L.
  Proof.
    intros HL. unfold resolveDb. destruct (strLstExists_spec L x) as [H | H].
    - split; [intros E; injection E as <-; split; [left; split; [apply HL, H | reflexivity] | exact H]|]. intros [[[_ ->] | (N & _)] _]; [reflexivity | destruct N; apply HL, H].
    - pose proof (dbFind_spec x) as HF. destruct (manifestDbFind dbs x) as [db |].
      + destruct HF as [F1 F2]. assert (NX : ~ F x) by (rewrite <- F2; apply (sdNotIds _ _ _ _ HS), F1). destruct (strLstExists_spec L (cvtUIntToZ (mdId db))) as [G | G].
        * split; [intros E; injection E as <-; split; [right; split; [exact NX|]; exists db; pose proof (HL _ G); auto | exact G]|].
          intros [[[A _] | (_ & db' & B1 & B2 & -> & _)] _]; [contradiction|]. now rewrite (name_unique db db' F1 B1) by congruence.
        * split; [discriminate|]. intros [[[A _] | (_ & db' & B1 & B2 & -> & _)] I]; [contradiction|]. rewrite (name_unique db db' F1 B1) in G by congruence. contradiction.
      + split; [discriminate|]. intros [[[A ->] | (_ & db' & B1 & B2 & _)] I]; [contradiction | destruct (HF db' B1 B2)].
  Qed.
  Lemma resolve_cases L x : (exists d, resolveDb dbs L x = Ok d) \/ resolveDb dbs L x = Err EFileMissing.
  Proof. unfold resolveDb. destruct (strLstExists L x); [eauto|]. destruct (manifestDbFind dbs x); [| auto]. destruct (strLstExists L _); eauto. Qed.

  Lemma exclude_ok L : (forall y, In y L <-> F y) -> forall ex ids, excludeIds dbs L ex = Ok ids <-> Forall2 den ex ids.
  Proof.
    intros HL. induction ex as [| x r IH]; intros ids; cbn [excludeIds].
    - split; [intros E; injection E as <-; constructor | inversion 1; reflexivity].
    - destruct (resolveDb dbs L x) as [d | e |] eqn:ER; cbn [bind].
      + apply resolve_ok in ER; [| intros; now apply HL]. destruct ER as [ER _]. destruct (excludeIds dbs L r) as [t | |] eqn:ET; cbn [bind].
        * split; [intros E; injection E as <-; constructor; [exact ER | now apply IH]|]. intros H. inversion H as [| ? d' ? t' H1 H2]; subst. apply IH in H2.
          rewrite (denotes_det _ _ _ ER H1). congruence.
        * split; [discriminate|]. intros H. inversion H as [| ? d' ? t' H1 H2]; subst. apply IH in H2. discriminate.
        * split; [discriminate|]. intros H. inversion H as [| ? d' ? t' H1 H2]; subst. apply IH in H2. discriminate.
      + split; [discriminate|]. intros H. inversion H as [| ? d' ? t' H1 H2]; subst. assert (X : resolveDb dbs L x = Ok d') by (apply resolve_ok; [intros; now apply HL|]; split; [exact H1 | apply HL, (denotes_found _ _ H1)]). congruence.
      + split; [discriminate|]. intros H. inversion H as [| ? d' ? t' H1 H2]; subst. assert (X : resolveDb dbs L x = Ok d') by (apply resolve_ok; [intros; now apply HL|]; split; [exact H1 | apply HL, (denotes_found _ _ H1)]). congruence.
  Qed.
  Lemma exclude_cases L ex : (exists ids, excludeIds dbs L ex = Ok ids) \/ excludeIds dbs L ex = Err EFileMissing.
  Proof.
    induction ex as [| x r IH]; [left; eexists; reflexivity|]. cbn [excludeIds]. destruct (resolve_cases L x) as [(d & ->) | ->]; [| right; reflexivity]. cbn [bind].
    destruct IH as [(t & ->) | ->]; [left; eexists; reflexivity | right; reflexivity].
  Qed.

  Lemma include_ok sys ex : forall incl L, ssorted L -> (forall y, In y L -> F y) ->
    (forall L', removeIncluded dbs sys ex L incl = Ok L' ->
       exists ids, Forall2 den incl ids /\ NoDup ids /\ (forall i, In i ids -> In i L /\ ~ In i sys /\ ~ In i ex) /\ ssorted L' /\ forall d, In d L' <-> In d L /\ ~ In d ids) /\
    (forall ids, Forall2 den incl ids -> NoDup ids -> (forall i, In i ids -> In i L /\ ~ In i sys /\ ~ In i ex) -> exists L', removeIncluded dbs sys ex L incl = Ok L').
  Proof.
    induction incl as [| x r IH]; intros L SL HL; cbn [removeIncluded].
    - split.
      + intros L' E. injection E as <-. exists []. split; [constructor|]. split; [constructor|]. split; [intros i []|]. split; [exact SL|]. intros d. cbn [In]. tauto.
      + intros ids _ _ _. eauto.
    - assert (SR : forall d, ssorted (strLstRemove L d)) by (intros; apply remove_sorted, SL).
      pose proof (ssorted_NoDup _ SL) as NL.
      assert (HR : forall d y, In y (strLstRemove L d) -> F y) by (intros d y Hy; apply remove_in in Hy; [apply HL, Hy | exact NL]).
      split.
      + intros L' E. destruct (resolveDb dbs L x) as [d | |] eqn:ER; cbn [bind] in E; [| discriminate | discriminate]. apply resolve_ok in ER; [| exact HL]. destruct ER as [ER HI].
        destruct (strLstExists_spec sys d) as [|NS]; [discriminate|]. destruct (strLstExists_spec ex d) as [|NE]; [discriminate|].
        destruct (proj1 (IH (strLstRemove L d) (SR d) (HR d)) L' E) as (ids & A1 & A2 & A3 & A4 & A5).
        assert (ND : ~ In d ids) by (intros X; apply A3 in X; destruct X as (X & _); apply remove_in in X; [apply X; reflexivity | exact NL]).
        exists (d :: ids). split; [constructor; assumption|]. split; [constructor; assumption|]. split; [| split; [exact A4|]].
        * intros i [<- | Hi]; [auto|]. destruct (A3 i Hi) as (B1 & B2). apply remove_in in B1; [| exact NL]. split; [apply B1 | exact B2].
        * intros e. rewrite A5, remove_in by exact NL. cbn [In]. intuition.
      + intros ids H1 H2 H3. inversion H1 as [| ? d ? ids' D1 D2]; subst. inversion H2 as [| ? ? Hi Hn]; subst.
        destruct (H3 d (or_introl eq_refl)) as (B1 & B2 & B3). rewrite (proj2 (resolve_ok L x d HL) (conj D1 B1)). cbn [bind].
        destruct (strLstExists_spec sys d) as [|NS]; [contradiction|]. destruct (strLstExists_spec ex d) as [|NE]; [contradiction|].
        apply (proj2 (IH (strLstRemove L d) (SR d) (HR d)) ids' D2 Hn). intros i Hi'. destruct (H3 i (or_intror Hi')) as (C1 & C2). split; [| exact C2].
        apply remove_in; [exact NL|]. split; [exact C1 | intros ->; contradiction].
  Qed.

  (** Which databases are zeroed *)
  Definition chosen (ex incl : list str) (d : str) : Prop :=
    match incl with
    | [] => exists x, In x ex /\ den x d
    | _ => F d /\ (forall x, In x incl -> ~ den x d) /\ (dbSystem dbs files tid d -> exists x, In x ex /\ den x d)
    end.
  Definition accepted (ex incl : list str) : Prop :=
    smallIds tid files /\ (exists d, F d) /\
    exists eids iids, Forall2 den ex eids /\ Forall2 den incl iids /\ NoDup iids /\ forall i, In i iids -> ~ dbSystem dbs files tid i /\ ~ In i eids.

  Lemma forall2_in (R : str -> str -> Prop) l m d : Forall2 R l m -> In d m <-> exists x, In x l /\ R x d /\ In d m.
  Proof.
    intros H. split; [| intros (x & _ & _ & I); exact I]. induction H as [| a b l m H1 H2 IH]; [intros []|]. intros [<- | H].
    - exists a. split; [now left|]. split; [exact H1 | now left].
    - destruct (IH H) as (x & X1 & X2 & X3). exists x. split; [now right|]. split; [exact X2 | now right].
  Qed.
  Lemma den_in l m d : Forall2 den l m -> In d m <-> exists x, In x l /\ den x d.
  Proof.
    intros H. split; [intros I; apply (forall2_in _ _ _ _ H) in I; destruct I as (x & X1 & X2 & _); eauto|].
    intros (x & X1 & X2). induction H as [| a b l m H1 H2 IH]; [destruct X1|]. destruct X1 as [-> | X1]; [left; exact (denotes_det _ _ _ H1 X2) | right; auto].
  Qed.

  Lemma targets_literal t : In t targets -> mtTablespaceId t <> 0 -> forallb literal (mtName t) = true.
  Proof. intros H1 H2. destruct (sdTargets _ _ _ _ HS t H1 H2) as (o & Ho & ->). rewrite forallb_app, (id_literal o Ho). reflexivity. Qed.

  (** The model's lists, when options are given *)
  Lemma expression_run ex incl : ex <> [] \/ incl <> [] -> smallIds tid files ->
    exists sys L, NoDup sys /\ ssorted L /\ (forall d, In d L <-> F d) /\ (forall d, In d sys <-> dbSystem dbs files tid d) /\
    restoreSelectiveExpression dbs files targets ver cat ex incl =
      match L with
      | [] => Err EFormat
      | _ =>
        let* excluded := excludeIds dbs L ex in
        let* rest := removeIncluded dbs sys excluded L incl in
        let zero := match incl with [] => excluded | _ => strLstMergeAnti rest (strLstMergeAnti (strLstSortAsc sys) (strLstSortAsc excluded)) end in
        Ok (match zero with [] => None | _ => Some (zeroExpression targets tid zero) end)
      end.
  Proof.
    intros HO HM. pose proof (tid_pat ver cat Hver Hcat) as HT. destruct (ts_ok _ HT) as (t & Ht).
    destruct (scan_ok tid _ t HT base_re Ht files (sdBelow _ _ _ _ HS) HM (systemDbs dbs) (systemDbs dbs) systemDbs_nodup systemDbs_nodup) as (sys & all & E & N1 & N2 & M1 & M2).
    exists sys, (strLstSortAsc all). split; [exact N1|]. split; [apply sorted_strict, N2|]. split; [| split].
    - intros d. rewrite strLstSortAsc_in, M1, systemDbs_in. reflexivity.
    - intros d. rewrite M2, systemDbs_in. reflexivity.
    - unfold restoreSelectiveExpression. fold tid.
      assert (G : forall A (a b : A), match ex, incl with [], [] => a | _, _ => b end = b) by (intros; destruct ex, incl; try reflexivity; destruct HO; contradiction).
      rewrite G. rewrite base_re. cbn [bind]. unfold tid in *. rewrite Ht. cbn [bind]. rewrite E. cbn [bind]. reflexivity.
  Qed.

  Lemma zero_list ex incl sys L eids rest : Forall2 den ex eids -> NoDup sys -> ssorted L -> (forall d, In d L <-> F d) -> (forall d, In d sys <-> dbSystem dbs files tid d) ->
    removeIncluded dbs sys eids L incl = Ok rest ->
    forall d, In d (match incl with [] => eids | _ => strLstMergeAnti rest (strLstMergeAnti (strLstSortAsc sys) (strLstSortAsc eids)) end) <-> chosen ex incl d.
  Proof.
    intros HE NS SL HL HY HR d. unfold chosen. destruct incl as [| x r] eqn:EI; [apply den_in, HE|]. rewrite <- EI in *. clear EI x r.
    destruct (proj1 (include_ok sys eids incl L SL (fun y => proj1 (HL y))) rest HR) as (ids & A1 & A2 & A3 & A4 & A5).
    rewrite (mergeAnti_filter (strLstSortAsc sys)); [| apply sorted_strict, NS | apply strLstSortAsc_sorted].
    rewrite mergeAnti_filter; [| exact A4 | apply StronglySorted_filter, strLstSortAsc_sorted].
    rewrite filter_In, negb_true_iff, A5, HL. rewrite (den_in _ _ d A1).
    assert (K : strLstExists (filter (fun x => negb (strLstExists (strLstSortAsc eids) x)) (strLstSortAsc sys)) d = false <-> (dbSystem dbs files tid d -> exists x, In x ex /\ den x d)).
    { rewrite <- (den_in _ _ d HE), <- HY. destruct (strLstExists_spec (filter (fun x => negb (strLstExists (strLstSortAsc eids) x)) (strLstSortAsc sys)) d) as [H | H].
      - split; [discriminate|]. intros G. apply filter_In in H. destruct H as [H1 H2]. rewrite strLstSortAsc_in in H1. apply negb_true_iff in H2.
        assert (H3 : strLstExists (strLstSortAsc eids) d = true) by (apply strLstExists_in; rewrite strLstSortAsc_in; apply G, H1). congruence.
      - split; [intros _ H1 | reflexivity]. destruct (strLstExists_spec (strLstSortAsc eids) d) as [G | G]; [now rewrite strLstSortAsc_in in G|]. exfalso. apply H. apply filter_In.
        split; [rewrite strLstSortAsc_in; exact H1|]. apply negb_true_iff. destruct (strLstExists_spec (strLstSortAsc eids) d); [contradiction | reflexivity]. }
    rewrite K. split.
    - intros ((B1 & B2) & B3). split; [exact B1|]. split; [intros x Hx Hd; apply B2; eauto | exact B3].
    - intros (B1 & B2 & B3). split; [split; [exact B1 | intros (x & Hx & Hd); exact (B2 x Hx Hd)] | exact B3].
  Qed.


  Lemma zeroExp_ok ex incl z : ex <> [] \/ incl <> [] -> restoreZeroExp dbs files targets ver cat ex incl = Ok z ->
    accepted ex incl /\ (forall f, restoreFileZeroed f z = true <-> ~ isVersionName f /\ exists d, chosen ex incl d /\ inDb targets tid d f).
  Proof.
    intros HO E. pose proof (tid_pat ver cat Hver Hcat) as HT. destruct (ts_ok _ HT) as (t & Ht).
    assert (HM : smallIds tid files).
    { intros f d v Hf Hd Hv. destruct (Z.lt_ge_cases v (2 ^ 32)) as [L | L]; [exact L|]. exfalso.
      assert (NS : ~ smallIds tid files) by (intros S; specialize (S f d v Hf Hd Hv); lia).
      revert E. unfold restoreZeroExp, restoreSelectiveExpression.
      assert (G : forall A (a b : A), match ex, incl with [], [] => a | _, _ => b end = b) by (intros; destruct ex, incl; try reflexivity; destruct HO; contradiction).
      rewrite G, base_re. cbn [bind]. rewrite Ht. cbn [bind]. rewrite (scan_err tid _ t HT base_re Ht files (sdBelow _ _ _ _ HS) NS). cbn [bind]. discriminate. }
    destruct (expression_run ex incl HO HM) as (sys & L & NS & SL & HL & HY & EQ). revert E. unfold restoreZeroExp. rewrite EQ. clear EQ.
    destruct L as [| l0 L0] eqn:EL; [discriminate|]. rewrite <- EL in *. assert (HNE : exists d, F d) by (exists l0; apply HL; rewrite EL; now left). clear EL l0 L0.
    destruct (excludeIds dbs L ex) as [eids | |] eqn:EE; cbn [bind]; [| discriminate | discriminate]. apply (exclude_ok L HL) in EE.
    destruct (removeIncluded dbs sys eids L incl) as [rest | |] eqn:ER; cbn [bind]; [| discriminate | discriminate].
    pose proof (zero_list ex incl sys L eids rest EE NS SL HL HY ER) as HZ. cbv zeta.
    set (zero := match incl with [] => eids | _ => _ end) in *. intros E. split.
    - split; [exact HM|]. split; [exact HNE|]. destruct (proj1 (include_ok sys eids incl L SL (fun y => proj1 (HL y))) rest ER) as (ids & A1 & A2 & A3 & _).
      exists eids, ids. split; [exact EE|]. split; [exact A1|]. split; [exact A2|]. intros i Hi. destruct (A3 i Hi) as (_ & B1 & B2). rewrite <- HY. auto.
    - intros f. destruct zero as [| z0 zr] eqn:EZ.
      + injection E as <-. cbn [restoreFileZeroed]. split; [discriminate|]. intros (_ & d & Hd & _). apply HZ in Hd. destruct Hd.
      + rewrite <- EZ in *. assert (ZN : zero <> []) by (rewrite EZ; discriminate).
        assert (ZL : Forall (fun d => forallb literal d = true) zero).
        { apply Forall_forall. intros d Hd. apply HZ in Hd. apply id_literal, found_id. unfold chosen in Hd. destruct incl; [destruct Hd as (x & _ & Hd); exact (denotes_found _ _ Hd) | apply Hd]. }
        destruct (zero_match targets tid zero f ZN HT ZL targets_literal) as (r & R1 & R2). rewrite R1 in E. cbn [bind] in E. injection E as <-. cbn [restoreFileZeroed].
        rewrite andb_true_iff, negb_true_iff, R2. rewrite <- endsVersion. destruct (strEndsWith f (txt "/PG_VERSION")).
        * split; [intros [_ X]; discriminate | intros [X _]; destruct X; reflexivity].
        * split; [intros [(d & D1 & D2) _]; split; [discriminate|]; exists d; split; [now apply HZ | exact D2] | intros [_ (d & D1 & D2)]; split; [exists d; split; [now apply HZ | exact D2] | reflexivity]].
  Qed.
  Lemma zeroExp_accepts ex incl : ex <> [] \/ incl <> [] -> accepted ex incl -> exists z, restoreZeroExp dbs files targets ver cat ex incl = Ok z.
  Proof.
    intros HO (HM & HNE & eids & iids & HE & HI & HN & HA). pose proof (tid_pat ver cat Hver Hcat) as HT.
    destruct (expression_run ex incl HO HM) as (sys & L & NS & SL & HL & HY & EQ). unfold restoreZeroExp. rewrite EQ. clear EQ.
    destruct L as [| l0 L0] eqn:EL; [destruct HNE as (d & Hd); apply HL in Hd; destruct Hd|]. rewrite <- EL in *. clear EL l0 L0.
    rewrite (proj2 (exclude_ok L HL ex eids) HE). cbn [bind].
    destruct (proj2 (include_ok sys eids incl L SL (fun y => proj1 (HL y))) iids HI HN) as (rest & ER).
    { intros i Hi. split; [apply HL; apply (den_in _ _ i HI) in Hi; destruct Hi as (x & _ & Hx); exact (denotes_found _ _ Hx)|]. rewrite HY. apply HA, Hi. }
    rewrite ER. cbn [bind]. pose proof (zero_list ex incl sys L eids rest HE NS SL HL HY ER) as HZ. cbv zeta.
    set (zero := match incl with [] => eids | _ => _ end) in *. destruct zero as [| z0 zr] eqn:EZ; [eauto|]. rewrite <- EZ in *. assert (ZN : zero <> []) by (rewrite EZ; discriminate).
    assert (ZL : Forall (fun d => forallb literal d = true) zero).
    { apply Forall_forall. intros d Hd. apply HZ in Hd. apply id_literal, found_id. unfold chosen in Hd. destruct incl; [destruct Hd as (x & _ & Hd); exact (denotes_found _ _ Hd) | apply Hd]. }
    destruct (zero_match targets tid zero [] ZN HT ZL targets_literal) as (r & R1 & _). rewrite R1. cbn [bind]. eauto.
  Qed.

  (** A file is in the directory of one database *)
  Lemma id_split d e r s : isId d -> isId e -> d ++ 47 :: r = e ++ 47 :: s -> d = e /\ r = s.
  Proof.
    intros Hd He. apply id_noslash in Hd. apply id_noslash in He. revert e He. induction d as [| c d IH]; intros [| c' e] He E; cbn [app] in E.
    - injection E as ->. auto.
    - injection E as <- _. destruct He. now left.
    - injection E as -> _. destruct Hd. now left.
    - injection E as <- E. destruct (IH ltac:(intros X; apply Hd; now right) e ltac:(intros X; apply He; now right) E) as [-> ->]. auto.
  Qed.
  Lemma fits_length p q : fits p q -> length p = length q.
  Proof. induction 1; cbn [length]; congruence. Qed.
  Lemma inDb_unique d e f : isId d -> isId e -> inDb targets tid d f -> inDb targets tid e f -> d = e.
  Proof.
    intros Hd He (r & H1) (s & H2).
    assert (HX : forall t, In t targets -> mtTablespaceId t <> 0 -> exists o, isId o /\ mtName t = txt "pg_tblspc/" ++ o) by (intros; now apply (sdTargets _ _ _ _ HS)).
    destruct H1 as [-> | (t & x & T1 & T2 & T3 & ->)], H2 as [E | (u & y & U1 & U2 & U3 & E)].
    - apply app_inv_head in E. apply (id_split d e r s Hd He) in E. apply E.
    - destruct (HX u U1 U2) as (o & Ho & EO). rewrite EO in E. rewrite <- app_assoc in E. discriminate.
    - destruct (HX t T1 T2) as (o & Ho & EO). rewrite EO in E. rewrite <- app_assoc in E. discriminate.
    - destruct (HX t T1 T2) as (o & Ho & EO). destruct (HX u U1 U2) as (o' & Ho' & EO'). rewrite EO, EO', <- !app_assoc in E. apply app_inv_head in E.
      apply (id_split o o') in E; [| exact Ho | exact Ho']. destruct E as [_ E].
      assert (LX : length x = length y) by (rewrite <- (fits_length _ _ T3); exact (fits_length _ _ U3)).
      assert (EX : x = y /\ txt "/" ++ d ++ txt "/" ++ r = txt "/" ++ e ++ txt "/" ++ s).
      { revert E LX. clear. generalize (txt "/" ++ d ++ txt "/" ++ r) (txt "/" ++ e ++ txt "/" ++ s). intros a b. revert y. induction x as [| c x IH]; intros [| c' y] E L; try discriminate; [auto|].
        cbn [app] in E. injection E as <- E. destruct (IH y E) as [-> ->]; [cbn in L; lia | auto]. }
      destruct EX as [_ EX]. apply app_inv_head in EX. apply (id_split d e r s Hd He) in EX. apply EX.
  Qed.
End Select.
