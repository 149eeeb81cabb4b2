(** The result is again a manifest where links lead to targets *)
From Verif Require Import Base Str NumModel ManifestPackModel ManifestModel LinkCheckModel CleanModel RemapModel RemapSpec RemapProof RemapProof2 RemapProof3 RemapProof4 RemapProof5.
From Coq Require Import Sorted.
Open Scope Z_scope.

Ltac same_x :=
  match goal with
  | A : mtName ?t = under pgData ?x, B : mtName ?t = under pgData ?y |- _ =>
      let E := fresh "Exy" in assert (E : x = y) by (apply (slashed_inj pgData); change (under pgData x = under pgData y); congruence); clear B; subst
  end.
Lemma after_keeps o t t' : after o t (Some t') -> mtName t' = mtName t /\ mtIsPath t' = mtIsPath t /\ mtTablespaceId t' = mtTablespaceId t /\
  mtTablespaceName t' = mtTablespaceName t /\ (mtFile t = None <-> mtFile t' = None).
Proof.
  intros H. inversion H; subst; cbn; repeat split; auto; try tauto; try congruence.
Qed.
Lemma after_none o t t' : mtName t <> pgData -> after o t None -> after o t (Some t') -> False.
Proof.
  intros Hb H1 H2. inversion H1; subst. inversion H2; subst; try tauto; try congruence; same_x;
  match goal with A : forall p, ~ In (?x, p) _, B : In (?x, _) _ |- _ => exact (A _ B) end.
Qed.
Lemma somes_in {A B} (R : A -> option B -> Prop) l outs b : Forall2 R l outs -> In b (somes outs) -> exists a, In a l /\ R a (Some b).
Proof.
  unfold somes. induction 1 as [|a x l outs H Hr IH]; cbn [flat_map]; [intros []|]. rewrite in_app_iff. intros [Hb|Hb].
  - destruct x as [b'|]; [|destruct Hb]. destruct Hb as [<-|[]]. exists a. cbn. tauto.
  - destruct (IH Hb) as (a' & H1 & H2). exists a'. cbn. tauto.
Qed.
Lemma in_somes {A B} (R : A -> option B -> Prop) l outs a : Forall2 R l outs -> In a l -> (exists b, R a (Some b) /\ In b (somes outs)) \/ R a None.
Proof.
  unfold somes. induction 1 as [|a' x l outs H Hr IH]; cbn [flat_map In]; [intros []|]. intros [<-|Ha].
  - destruct x as [b|]; [|tauto]. left. exists b. rewrite in_app_iff. cbn. tauto.
  - destruct (IH Ha) as [(b & H1 & H2)|H1]; [|tauto]. left. exists b. rewrite in_app_iff. tauto.
Qed.
Lemma somes_nodup {A} (R : A -> option A -> Prop) (key : A -> str) l outs : (forall a b, R a (Some b) -> key b = key a) -> Forall2 R l outs ->
  NoDup (map key l) -> NoDup (map key (somes outs)).
Proof.
  intros Hk H. induction H as [|a x l outs H Hr IH]; [intros; constructor|]. cbn [map]. intros Hn. apply NoDup_cons_iff in Hn. destruct Hn as [N1 N2].
  change (somes (x :: outs)) with (match x with Some a => [a] | None => [] end ++ somes outs). destruct x as [b|]; cbn [app map]; [|auto]. constructor; [|auto].
  intros Hi. apply in_map_iff in Hi. destruct Hi as (c & Ec & Hc). destruct (somes_in R l outs c Hr Hc) as (a' & Ha & HR). apply N1.
  rewrite <- (Hk _ _ H), <- Ec, (Hk _ _ HR). now apply in_map.
Qed.
Lemma F2_left {A B} (R : A -> B -> Prop) l l' a : Forall2 R l l' -> In a l -> exists b, In b l' /\ R a b.
Proof. induction 1 as [|x y l l' H Hr IH]; [intros []|]. intros [<-|Ha]; [exists y; cbn; tauto|]. destruct (IH Ha) as (b & H1 & H2). exists b. cbn. tauto. Qed.
Lemma F2_right {A B} (R : A -> B -> Prop) l l' b : Forall2 R l l' -> In b l' -> exists a, In a l /\ R a b.
Proof. induction 1 as [|x y l l' H Hr IH]; [intros []|]. intros [<-|Hb]; [exists x; cbn; tauto|]. destruct (IH Hb) as (a & H1 & H2). exists a. cbn. tauto. Qed.
Lemma F2_names {A B} (R : A -> B -> Prop) (f : A -> str) (g : B -> str) l l' : (forall a b, R a b -> g b = f a) -> Forall2 R l l' -> map g l' = map f l.
Proof. intros H. induction 1 as [|a b l l' HR _ IH]; [reflexivity|]. cbn [map]. rewrite (H _ _ HR), IH. reflexivity. Qed.
Lemma ts_mapped_fun o m t p q : optsWf o -> ~ tsBad o m -> In t (cmTargets m) -> isTablespace t -> tsMapped o t p -> tsMapped o t q -> p = q.
Proof.
  intros Ho Hb Ht T H1 H2. destruct H1 as [(k & K1 & I1)|(N1 & a & n & A1 & B1 & ->)], H2 as [(k' & K2 & I2)|(N2 & a' & n' & A2 & B2 & ->)].
  - destruct (str_dec p q) as [E|E]; [exact E|]. exfalso. apply Hb. left. exists t, k, k', p, q. tauto.
  - exfalso. exact (N2 _ _ K1 I1).
  - exfalso. exact (N1 _ _ K2 I2).
  - congruence.
Qed.

Lemma mapped_wf o m m' : optsWf o -> mapWf m -> ~ tsBad o m -> mapped o m m' -> mapWf m'.
Proof.
  intros Ho Hw Hts (EP & EF & xs & (Hxs & Hx) & (outs & new & Ha & Hnew & ET) & (outsL & newL & HaL & HnewL & EL)).
  assert (Hk : forall x p q, In (x, p) (roLink o) -> In (x, q) (roLink o) -> p = q) by (intros x p q; apply in_fun; apply Ho).
  assert (In_T : forall t', In t' (cmTargets m') -> (exists t, In t (cmTargets m) /\ after o t (Some t')) \/ (exists x, In x xs /\ newTarget o m x t')).
  { intros t' H. rewrite ET, in_app_iff in H. destruct H as [H|H]; [left; exact (somes_in _ _ _ _ Ha H)|right; exact (F2_right _ _ _ _ Hnew H)]. }
  assert (In_L : forall k', In k' (cmLinks m') -> (exists k, In k (cmLinks m) /\ afterLink o m k (Some k')) \/ (exists x, In x xs /\ newLink o m x k')).
  { intros k' H. rewrite EL, in_app_iff in H. destruct H as [H|H]; [left; exact (somes_in _ _ _ _ HaL H)|right; exact (F2_right _ _ _ _ HnewL H)]. }
  assert (Old : forall x, In x xs -> ~ isTarget m x) by (intros x H; now apply Hx).
  assert (NewNamed : forall x, In x xs -> named (cmPaths m) (under pgData x) \/ named (cmFiles m) (under pgData x)).
  { intros x H. destruct (F2_left _ _ _ _ Hnew H) as (t' & _ & _ & _ & _ & _ & p & _ & [[H1 _]|[H1 _]]); tauto. }
  assert (NotOwned : forall x t, In x xs -> In t (cmTargets m) -> mtName t <> pgData -> ~ linkOf t (under pgData x)).
  { intros x t H Ht Hb [[T E]|[T E]].
    - apply (slashed_inj pgData) in E. destruct (wfTablespace _ Hw t Ht T) as (_ & _ & _ & N1 & N2). rewrite <- E in N1, N2. destruct (NewNamed x H); tauto.
    - apply (Old x H). now exists t. }
  assert (NamesNew : map mtName new = map (under pgData) xs) by (apply (F2_names (newTarget o m)); [intros x t H; apply H|exact Hnew]).
  assert (NamesNewL : map mlName newL = map (under pgData) xs) by (apply (F2_names (newLink o m)); [intros x t H; apply H|exact HnewL]).
  assert (NDxs : NoDup (map (under pgData) xs)) by (apply NoDup_map_inj; [intros a b; apply (slashed_inj pgData)|now apply ssorted_NoDup]).
  assert (ND : NoDup (map mtName (cmTargets m'))).
  { rewrite ET, map_app, NamesNew. apply NoDup_app_intro; [|exact NDxs|].
    - apply (somes_nodup (after o) mtName (cmTargets m)); [|exact Ha|apply Hw]. intros a b H. now apply (after_keeps o).
    - intros n H1 H2. apply in_map_iff in H1, H2. destruct H1 as (t' & <- & H1), H2 as (x & E & H2). destruct (somes_in _ _ _ _ Ha H1) as (t & Ht & HA).
      apply (Old x H2). exists t. split; [exact Ht|]. rewrite E. symmetry. now apply (after_keeps o). }
  assert (OwnOld : forall t t' n, after o t (Some t') -> (linkOf t' n <-> linkOf t n)).
  { intros t t' n H. destruct (after_keeps o t t' H) as (E1 & _ & E2 & _). unfold linkOf, isTablespace. rewrite E1, E2. tauto. }
  assert (OwnNew : forall x t' n, newTarget o m x t' -> (linkOf t' n <-> n = under pgData x)).
  { intros x t' n (E1 & _ & E2 & _). unfold linkOf, isTablespace. rewrite E1, E2. split; [intros [[H _]|[_ H]]; [congruence|exact H]|]. intros ->. right. split; [congruence|reflexivity]. }
  assert (NewNotBase : forall x t', newTarget o m x t' -> mtName t' <> pgData).
  { intros x t' (E1 & _). rewrite E1. intros H. symmetry in H. exact (pg_under _ H). }
  constructor.
  - exact ND.
  - rewrite EL, map_app, NamesNewL. apply NoDup_app_intro; [|exact NDxs|].
    + apply (somes_nodup (afterLink o m) mlName (cmLinks m)); [|exact HaL|apply Hw]. intros a b (t & _ & _ & _ & H & _). exact H.
    + intros n H1 H2. apply in_map_iff in H1, H2. destruct H1 as (k' & <- & H1), H2 as (x & E & H2). destruct (somes_in _ _ _ _ HaL H1) as (k & _ & t & Ht & Hb & Hl & En & _).
      rewrite <- En, <- E in Hl. exact (NotOwned x t H2 Ht Hb Hl).
  - rewrite EP. apply Hw.
  - destruct (wfBase _ Hw) as (b & Hb & En & Ef). exists (moved b (roPg o) (mtFile b)). split; [|cbn; tauto].
    rewrite ET, in_app_iff. left. destruct (in_somes _ _ _ _ Ha Hb) as [(b' & HA & Hi)|HA].
    + inversion HA; subst; try tauto.
      * exfalso. apply (pg_under x). congruence.
      * congruence.
      * exfalso. apply (pg_under x). congruence.
    + inversion HA; subst. exfalso. apply (pg_under x). congruence.
  - rewrite EP. apply Hw.
  - intros t' Ht' E. destruct (In_T t' Ht') as [(t & Ht & HA)|(x & Hxx & HN)].
    + destruct (after_keeps o t t' HA) as (E1 & E2 & E3 & _). unfold isTablespace. rewrite E2, E3. apply (wfIsBase _ Hw t Ht). congruence.
    + exfalso. exact (NewNotBase _ _ HN E).
  - intros t' Ht' E. destruct (In_T t' Ht') as [(t & Ht & HA)|(x & Hxx & HN)].
    + destruct (after_keeps o t t' HA) as (E1 & E2 & E3 & _). rewrite E2. apply (wfTarget _ Hw t Ht). congruence.
    + apply HN.
  - intros t' Ht' T. rewrite EP, EF. destruct (In_T t' Ht') as [(t & Ht & HA)|(x & Hxx & HN)].
    + destruct (after_keeps o t t' HA) as (E1 & E2 & E3 & E4 & E5). assert (Tt : isTablespace t) by (unfold isTablespace in *; congruence).
      rewrite E1, E4. destruct (wfTablespace _ Hw t Ht Tt) as (H1 & H2 & H3). tauto.
    + exfalso. destruct HN as (_ & _ & E & _). exact (T E).
  - intros t' Ht' E T. destruct (In_T t' Ht') as [(t & Ht & HA)|(x & Hxx & HN)].
    + destruct (after_keeps o t t' HA) as (E1 & E2 & E3 & E4 & E5). rewrite E1. apply (wfLink _ Hw t Ht); [congruence|]. unfold isTablespace in *. rewrite <- E3. exact T.
    + exists x. apply HN.
  - intros t' Ht' E. destruct (In_T t' Ht') as [(t & Ht & HA)|(x & Hxx & HN)].
    + assert (Hb : mtName t <> pgData) by (destruct (after_keeps o t t' HA) as (E1 & _); congruence).
      destruct (wfHasLink _ Hw t Ht Hb) as (k & Hik & Hl & Hd). destruct (in_somes _ _ _ _ HaL Hik) as [(k' & HK & Hi)|(t2 & Ht2 & Hb2 & Hl2 & HK)].
      * exists k'. split; [rewrite EL, in_app_iff; tauto|]. destruct HK as (t2 & Ht2 & Hb2 & Hl2 & En & _ & _ & HD).
        assert (Heq : t2 = t) by exact (wfOneTarget _ Hw t2 t _ Ht2 Ht Hb2 Hb Hl2 Hl). subst t2. split; [rewrite En; now apply (OwnOld t t')|].
        unfold leads in *. inversion HA as [Eb Eq|p Nb T Hm Eq|Nb T Hm Eq|x p T Ex Hp Ef Eq|x p f d g T Ex Hp Ef HF Eq|x T Ex Hp Hall Eq|]; subst t'.
        -- tauto.
        -- cbn [moved mtFile mtPath]. destruct (wfTablespace _ Hw t Ht T) as (_ & Ef & _). rewrite Ef. destruct HD as [(_ & HD)|[(_ & HD & _)|(HD & _)]].
           ++ exact (ts_mapped_fun o m t _ _ Ho Hts Ht T HD Hm).
           ++ exfalso. exact (HD _ Hm).
           ++ tauto.
        -- destruct HD as [(_ & HD)|[(_ & _ & HD)|(HD & _)]]; [exfalso; exact (Hm _ HD)|rewrite HD; exact Hd|tauto].
        -- cbn [moved mtFile mtPath]. destruct HD as [(HD & _)|[(HD & _)|(_ & y & Ey & HD)]]; [tauto|tauto|]. rewrite Ex in Ey. apply (slashed_inj pgData) in Ey. subst y.
           destruct HD as [HD|(HD & _)]; [exact (Hk _ _ _ HD Hp)|exfalso; exact (HD _ Hp)].
        -- cbn [moved mtFile mtPath]. destruct HD as [(HD & _)|[(HD & _)|(_ & y & Ey & HD)]]; [tauto|tauto|]. rewrite Ex in Ey. apply (slashed_inj pgData) in Ey. subst y.
           destruct HD as [HD|(HD & _)]; [|exfalso; exact (HD _ Hp)]. rewrite (Hk _ _ _ HD Hp). exact HF.
        -- destruct HD as [(HD & _)|[(HD & _)|(_ & y & Ey & HD)]]; [tauto|tauto|]. rewrite Ex in Ey. apply (slashed_inj pgData) in Ey. subst y.
           destruct HD as [HD|(_ & _ & HD)]; [exfalso; exact (Hp _ HD)|rewrite HD; exact Hd].
      * exfalso. assert (Heq : t2 = t) by exact (wfOneTarget _ Hw t2 t _ Ht2 Ht Hb2 Hb Hl2 Hl). subst t2. exact (after_none o t t' Hb HK HA).
    + destruct (F2_left _ _ _ _ HnewL Hxx) as (k & Hik & HK). exists k. split; [rewrite EL, in_app_iff; tauto|].
      destruct HK as (En & HD & _). split; [apply (OwnNew x t' _ HN); exact En|].
      unfold leads. destruct HN as (_ & _ & _ & _ & p & Hp & [(_ & -> & ->)|(_ & g & -> & HF)]); [exact (Hk _ _ _ HD Hp)|]. rewrite (Hk _ _ _ HD Hp). exact HF.
  - intros k' Hk'. destruct (In_L k' Hk') as [(k & Hik & t & Ht & Hb & Hl & En & _ & _ & HD)|(x & Hxx & En & _)].
    + destruct (in_somes _ _ _ _ Ha Ht) as [(t' & HA & Hi)|HA].
      * exists t'. split; [rewrite ET, in_app_iff; tauto|]. destruct (after_keeps o t t' HA) as (E1 & _). split; [congruence|]. rewrite En. now apply (OwnOld t t').
      * exfalso. inversion HA as [| | | | | |x T Ex Hp Hall Eq]. destruct HD as [(HD & _)|[(HD & _)|(_ & y & Ey & HD)]]; [tauto|tauto|]. rewrite Ex in Ey. apply (slashed_inj pgData) in Ey. subst y.
        destruct HD as [HD|(_ & HD & _)]; [exact (Hp _ HD)|congruence].
    + destruct (F2_left _ _ _ _ Hnew Hxx) as (t' & Hi & HN). exists t'. split; [rewrite ET, in_app_iff; tauto|]. split; [exact (NewNotBase _ _ HN)|].
      apply (OwnNew x t' _ HN). exact En.
  - intros t' u' n Ht' Hu' Bt Bu Lt Lu. apply (key_inj mtName t' u' _ ND Ht' Hu').
    destruct (In_T t' Ht') as [(t & Ht & HA)|(x & Hxx & HN)], (In_T u' Hu') as [(u & Hu & HB)|(y & Hyy & HM)].
    + destruct (after_keeps o t t' HA) as (E1 & _), (after_keeps o u u' HB) as (E2 & _). rewrite E1, E2. f_equal. apply (wfOneTarget _ Hw t u n); auto; try congruence.
      * now apply (OwnOld t t').
      * now apply (OwnOld u u').
    + exfalso. apply (OwnNew y u' n HM) in Lu. subst n. destruct (after_keeps o t t' HA) as (E1 & _). apply (NotOwned y t Hyy Ht); [congruence|]. now apply (OwnOld t t').
    + exfalso. apply (OwnNew x t' n HN) in Lt. subst n. destruct (after_keeps o u u' HB) as (E1 & _). apply (NotOwned x u Hxx Hu); [congruence|]. now apply (OwnOld u u').
    + apply (OwnNew x t' n HN) in Lt. apply (OwnNew y u' n HM) in Lu. destruct HN as (-> & _), HM as (-> & _). congruence.
  - rewrite EP, EF. apply (wfPathFile _ Hw).
Qed.
