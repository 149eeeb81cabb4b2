From Verif Require Import Base Str ExpireModel ExpireSpec ExpireProof ExpireProof2 ExpireProof3 ExpireProof4.
From Coq Require Import Permutation Sorted.
Open Scope Z_scope.

(** * Directories that removeExpiredBackup deletes *)

Lemma removeExpired_spec s l adhoc x : goodStore s ->
  (In x (removeExpired s l adhoc) <->
   labelAny x = true /\ In x (map dLabel (stDirs s)) /\ ~ In x (map bkLabel l) /\ ~ resumable s l adhoc x).
Proof.
  intros [Hn _]. unfold removeExpired. set (disk := strLstSortDesc (filter labelAny (map dLabel (stDirs s)))).
  assert (Hd : forall y, In y disk <-> labelAny y = true /\ In y (map dLabel (stDirs s))).
  { intros y. unfold disk. rewrite strLstSortDesc_in, filter_In. tauto. }
  assert (Hs : StronglySorted (fun a b => sle b a) disk) by apply strLstSortDesc_sorted.
  assert (Hnd : NoDup disk).
  { unfold disk. eapply Permutation_NoDup; [apply Permutation_sym, strLstSortDesc_perm|]. now apply NoDup_filter. }
  clearbody disk. rewrite filter_In, negb_true_iff.
  assert (Hl : strLstExists (labels l) x = false <-> ~ In x (map bkLabel l)).
  { destruct (strLstExists_spec (labels l) x); unfold labels in *; split; intuition congruence. }
  rewrite Hl. clear Hl. destruct disk as [|d0 r].
  { cbn. split; [tauto|]. intros (H1 & H2 & _). exfalso. now apply (Hd x). }
  assert (Htop : newestDir s d0).
  { split; [apply Hd; now left|]. split; [apply Hd; now left|]. intros y Hy1 Hy2.
    assert (In y (d0 :: r)) as [<-|Hy] by (now apply Hd); [apply sle_refl|]. inversion Hs as [|? ? _ Hf]. rewrite Forall_forall in Hf. now apply Hf. }
  assert (Hother : newestDir s x -> x = d0).
  { intros (A & B & C). destruct Htop as (A' & B' & C'). apply sle_antisym; [apply C'|apply C]; auto. }
  inversion Hnd as [|? ? Hni _]; subst.
  assert (Hgo : forall skip : bool, (skip = true <-> resumable s l adhoc d0) ->
    ((In x (if skip then tl (d0 :: r) else d0 :: r) /\ ~ In x (map bkLabel l)) <->
     labelAny x = true /\ In x (map dLabel (stDirs s)) /\ ~ In x (map bkLabel l) /\ ~ resumable s l adhoc x)).
  { intros skip Hsk. pose proof (Hd x) as Hx. cbn [In tl] in *. destruct skip.
    - split.
      + intros [H1 H2]. assert (x <> d0) by congruence. split; [tauto|]. split; [tauto|]. split; [exact H2|].
        intros (H3 & _). apply Hother in H3. contradiction.
      + intros (H1 & H2 & H3 & H4). split; [|exact H3]. destruct (proj2 Hx (conj H1 H2)) as [<-|H]; [|exact H].
        exfalso. apply H4. now apply Hsk.
    - split.
      + intros [H1 H2]. split; [tauto|]. split; [tauto|]. split; [exact H2|]. intros H. pose proof H as (H3 & _).
        apply Hother in H3. subst x. apply Hsk in H. discriminate.
      + intros (H1 & H2 & H3 & H4). split; [|exact H3]. apply Hx. auto. }
  apply Hgo. unfold resumable. destruct (manifestOf s d0) as [m|]; [split; [discriminate|intros (_ & H & _); discriminate]|].
  destruct (copyOf s d0) as [m|]; [|split; [discriminate|intros (_ & _ & (m & E & _)); discriminate]].
  destruct adhoc as [a|].
  - unfold strBeginsWith. destruct (strEqb_spec (firstn (length (firstn 16 a)) d0) (firstn 16 a)) as [E|E].
    + destruct (mfPrior m) as [p|] eqn:Ep.
      * rewrite labelExists_in. split.
        -- intros H. split; [exact Htop|]. split; [reflexivity|]. exists m. split; [reflexivity|]. intros a' Ea _. eauto.
        -- intros (_ & _ & m' & Em & H). injection Em as <-. destruct (H a eq_refl E) as (p' & Ep' & H'). congruence.
      * split; [discriminate|]. intros (_ & _ & m' & Em & H). injection Em as <-. destruct (H a eq_refl E) as (p' & Ep' & H'). congruence.
    + split; [intros _|reflexivity]. split; [exact Htop|]. split; [reflexivity|]. exists m. split; [reflexivity|].
      intros a' Ea H. injection Ea as <-. contradiction.
  - split; [intros _|reflexivity]. split; [exact Htop|]. split; [reflexivity|]. exists m. split; [reflexivity|]. intros a' Ea. discriminate.
Qed.

(** * Interruption *)

Lemma ordered_ext l1 l2 : ordered l1 -> ordered l2 -> (forall b, In b l1 <-> In b l2) -> l1 = l2.
Proof.
  intros [H1 _] [H2 _] He.
  assert (Hf : forall l b, StronglySorted slt (map bkLabel l) -> forall l', l = b :: l' -> Forall (fun c => slt (bkLabel b) (bkLabel c)) l').
  { intros l b Hs l' ->. cbn in Hs. inversion Hs as [|? ? _ H]. now apply Forall_map. }
  revert l2 H2 He. induction l1 as [|a l1 IH]; intros l2 H2 He.
  - destruct l2 as [|b l2]; [reflexivity|]. exfalso. apply (He b). now left.
  - destruct l2 as [|b l2]; [exfalso; apply (He a); now left|].
    pose proof (Hf _ a H1 l1 eq_refl) as F1. pose proof (Hf _ b H2 l2 eq_refl) as F2. rewrite Forall_forall in F1, F2.
    assert (a = b).
    { destruct (proj1 (He a) (or_introl eq_refl)) as [E|Ha]; [congruence|].
      destruct (proj2 (He b) (or_introl eq_refl)) as [E|Hb]; [congruence|].
      exfalso. eapply slt_asym; [apply (F1 b Hb)|apply (F2 a Ha)]. }
    subst b. f_equal. cbn in H1, H2. inversion H1 as [|? ? H1' _]; inversion H2 as [|? ? H2' _]; subst. apply IH; auto.
    intros c. split; intros Hc.
    + destruct (proj1 (He c) (or_intror Hc)) as [<-|H]; [|exact H]. exfalso. eapply slt_irrefl. now apply (F1 a).
    + destruct (proj2 (He c) (or_intror Hc)) as [<-|H]; [|exact H]. exfalso. eapply slt_irrefl. now apply (F2 a).
Qed.

Section Crash.
  Variables (s : store) (hist : list pgHist).
  Hypothesis Hok : repoOk s.
  Let L := stInfo s.
  Let l0 := reconstruct s hist L.

  Lemma l0_good : goodHistory l0.
  Proof.
    destruct Hok as (Hg & (Ho & Hc & Hw) & Hag). destruct (reconstruct_spec s hist L Hg Ho Hc Hag) as (A & B & _).
    split; [exact A|]. split; [exact B|]. now apply reconstruct_wellLabelled.
  Qed.
  Lemma l0_usable x : In x (map bkLabel l0) <-> usable s hist L x.
  Proof. destruct Hok as (Hg & (Ho & Hc & Hw) & Hag). apply (reconstruct_spec s hist L Hg Ho Hc Hag). Qed.
  Lemma l0_agrees : agrees s l0.
  Proof. destruct Hok as (Hg & (Ho & Hc & Hw) & Hag). apply (reconstruct_agrees s hist L Hg Ho Hc Hag). Qed.
  Lemma l0_entry b : In b l0 -> entryOk s L b.
  Proof. destruct Hok as (Hg & (Ho & Hc & Hw) & Hag). apply (reconstruct_spec s hist L Hg Ho Hc Hag). Qed.

  (** entries are determined by the label *)
  Lemma entry_eq b c : In b l0 -> entryOk s L c -> bkLabel b = bkLabel c -> b = c.
  Proof.
    intros Hb Hc E. pose proof (l0_entry b Hb) as He. destruct Hok as (Hg & (Ho & _) & _). unfold entryOk in *. rewrite E in He.
    destruct He as [He|[He (m & Hm & He')]], Hc as [Hc|[Hc (m' & Hm' & Hc')]].
    - eapply label_inj; [apply NoDup_labels, Ho|exact He|exact Hc|exact E].
    - exfalso. apply Hc. rewrite <- E. now apply in_map.
    - exfalso. apply He. now apply in_map.
    - congruence.
  Qed.

  Lemma agrees_removal s' l : (forall x, manifestOf s' x = None \/ manifestOf s' x = manifestOf s x) -> agrees s l -> agrees s' l.
  Proof.
    intros Hm Ha b m Hb Em. apply Ha; [exact Hb|]. destruct (Hm (bkLabel b)); congruence.
  Qed.

  (** Phase 1: some manifests are gone, backup.info is the old one. *)
  Lemma phase1 s' (R : str -> Prop) :
    goodStore s' -> stInfo s' = L ->
    (forall x, R x -> manifestOf s' x = None) -> (forall x, ~ R x -> manifestOf s' x = manifestOf s x) ->
    (forall x, R x \/ ~ R x) ->
    (forall x b, R x -> In b l0 -> dependsOn l0 (bkLabel b) x -> R (bkLabel b)) ->
    repoOk s' /\ goodHistory (reconstruct s' hist (stInfo s')) /\
    forall b, In b (reconstruct s' hist (stInfo s')) <-> In b l0 /\ ~ R (bkLabel b).
  Proof.
    intros Hg' HL HR1 HR2 Rdec Hclosed. pose proof Hok as (Hg & (Ho & Hc & Hw) & Hag). rewrite HL. fold L in Ho, Hc, Hw, Hag.
    assert (Hmf : forall x, manifestOf s' x = None \/ manifestOf s' x = manifestOf s x) by (intros x; destruct (Rdec x); auto).
    assert (Hag' : agrees s' L) by now apply agrees_removal.
    assert (Hok' : repoOk s') by (split; [exact Hg'|]; rewrite HL; split; [exact (conj Ho (conj Hc Hw))|exact Hag']).
    split; [exact Hok'|]. destruct (reconstruct_spec s' hist L Hg' Ho Hc Hag') as (A & B & C & _ & D).
    split. { split; [exact A|]. split; [exact B|]. now apply reconstruct_wellLabelled. }
    assert (Hu : forall x, usable s' hist L x <-> usable s hist L x /\ ~ R x).
    { intros x. split.
      - intros Hx. split; [|intros HR; apply usable_manifest in Hx; destruct Hx as (m & Hm); rewrite HR1 in Hm by exact HR; discriminate].
        induction Hx as [lab m Hm Hor Hp|lab m p Hm Hor Hp Hx IH].
        + destruct (Hmf lab) as [E|E]; [congruence|]. rewrite E in Hm. eapply usable_full; eauto.
        + destruct (Hmf lab) as [E|E]; [congruence|]. rewrite E in Hm. eapply usable_dep; eauto.
      - intros [Hx Hn]. induction Hx as [lab m Hm Hor Hp|lab m p Hm Hor Hp Hx IH].
        + rewrite <- (HR2 lab Hn) in Hm. eapply usable_full; eauto.
        + assert (~ R p).
          { intros HRp. apply Hn. assert (Hul : usable s hist L lab) by (eapply usable_dep; eauto). apply l0_usable in Hul.
            apply in_map_iff in Hul. destruct Hul as (b & <- & Hb). apply (Hclosed p b HRp Hb).
            eapply dep_prior; [exact Hb| |constructor]. rewrite <- Hp. now apply l0_agrees. }
          rewrite <- (HR2 lab Hn) in Hm. eapply usable_dep; eauto. }
    assert (Hent : forall b, In b (reconstruct s' hist L) -> entryOk s L b).
    { intros b Hb. destruct (C b Hb) as [H|[H1 (m & Hm & E)]]; [now left|]. right. split; [exact H1|]. exists m. split; [|exact E].
      destruct (Hmf (bkLabel b)); congruence. }
    intros b. split.
    - intros Hb. assert (Hlab : In (bkLabel b) (map bkLabel (reconstruct s' hist L))) by now apply in_map.
      apply D, Hu in Hlab. destruct Hlab as [H1 H2]. split; [|exact H2]. apply l0_usable in H1. apply in_map_iff in H1.
      destruct H1 as (c & E & Hcin). rewrite <- (entry_eq c b Hcin (Hent b Hb) E). exact Hcin.
    - intros [Hb Hn]. assert (Hx : usable s' hist L (bkLabel b)). { apply Hu. split; [|exact Hn]. apply l0_usable. now apply in_map. }
      apply D in Hx. apply in_map_iff in Hx. destruct Hx as (c & E & Hcin). rewrite (entry_eq b c Hb (Hent c Hcin) (eq_sym E)). exact Hcin.
  Qed.

  (** Phase 2: backup.info is the new list. *)
  Lemma phase2 s' l1 (R : str -> Prop) :
    goodStore s' -> stInfo s' = l1 -> goodHistory l1 -> (forall b, In b l1 -> In b l0) ->
    (forall x, R x -> manifestOf s' x = None) -> (forall x, ~ R x -> manifestOf s' x = manifestOf s x) ->
    (forall x, R x \/ ~ R x) ->
    (forall b, In b l0 -> (R (bkLabel b) <-> ~ In b l1)) ->
    repoOk s' /\ reconstruct s' hist (stInfo s') = l1.
  Proof.
    intros Hg' HL Hgh Hsub HR1 HR2 Rdec Hiff. pose proof Hok as (Hg & (Ho & Hc & Hw) & Hag). rewrite HL. fold L in Ho, Hc, Hw, Hag.
    pose proof Hgh as (Ho1 & Hc1 & Hw1).
    assert (Hmf : forall x, manifestOf s' x = None \/ manifestOf s' x = manifestOf s x) by (intros x; destruct (Rdec x); auto).
    assert (Hag' : agrees s' l1). { apply agrees_removal; [exact Hmf|]. intros b m Hb Em. apply l0_agrees; auto. }
    split. { split; [exact Hg'|]. rewrite HL. split; [exact Hgh|exact Hag']. }
    destruct (reconstruct_spec s' hist l1 Hg' Ho1 Hc1 Hag') as (A & B & C & _ & D).
    assert (Hin1 : forall x, usable s' hist l1 x -> usable s hist L x /\ In x (map bkLabel l1)).
    { intros x Hx. assert (Hfin : usable s hist L x -> In x (map bkLabel l1)).
      { intros Hul. apply l0_usable in Hul. apply in_map_iff in Hul. destruct Hul as (b & <- & Hb).
        apply in_map. destruct (in_dec backup_dec b l1) as [H|H]; [exact H|]. apply Hiff in H; [|exact Hb].
        apply usable_manifest in Hx. destruct Hx as (m & Hm). rewrite HR1 in Hm by exact H. discriminate. }
      assert (usable s hist L x); [|auto]. clear Hfin.
      induction Hx as [lab m Hm Hor Hp|lab m p Hm Hor Hp Hx IH].
      - destruct Hor as [Hor|Hor].
        + apply l0_usable. apply in_map_iff in Hor. destruct Hor as (b & <- & Hb). apply in_map. auto.
        + destruct (Hmf lab) as [E|E]; [congruence|]. rewrite E in Hm. eapply usable_full; eauto.
      - destruct Hor as [Hor|Hor].
        + apply l0_usable. apply in_map_iff in Hor. destruct Hor as (b & <- & Hb). apply in_map. auto.
        + destruct (Hmf lab) as [E|E]; [congruence|]. rewrite E in Hm. eapply usable_dep; eauto. }
    assert (Hin2 : forall b, In b l1 -> usable s' hist l1 (bkLabel b)).
    { apply (ordered_induction l1 (fun b => usable s' hist l1 (bkLabel b)) Ho1). intros b Hb IH.
      assert (Hul : usable s hist L (bkLabel b)) by (apply l0_usable, in_map; auto). destruct (usable_manifest _ _ _ _ Hul) as (m & Hm).
      assert (Hm' : manifestOf s' (bkLabel b) = Some m).
      { rewrite HR2; [exact Hm|]. intros HRb. apply Hiff in HRb; auto. }
      eapply usable_intro; [exact Hm'|left; now apply in_map|]. pose proof (Hag' b m Hb Hm') as Ep.
      destruct (mfPrior m) as [p|]; [|exact I]. destruct (Hc1 b p Hb Ep) as (c & Hcl & Ec). rewrite <- Ec. apply IH; [exact Hcl|].
      rewrite Ec. now apply Ho1. }
    apply ordered_ext; [exact A|exact Ho1|]. intros b. split.
    - intros Hb. destruct (C b Hb) as [H|[H1 _]]; [exact H|]. exfalso. apply H1. apply Hin1, D. now apply in_map.
    - intros Hb. pose proof (Hin2 b Hb) as Hx. apply D in Hx. apply in_map_iff in Hx. destruct Hx as (c & E & Hcin).
      destruct (C c Hcin) as [H|[H1 _]].
      + assert (b = c) as -> by (eapply label_inj; [apply NoDup_labels, Ho1|exact Hb|exact H|congruence]). exact Hcin.
      + exfalso. apply H1. rewrite E. now apply in_map.
  Qed.

  Lemma not_updated : reconstructUpdated s hist L = false -> l0 = L.
  Proof.
    pose proof Hok as (Hg & (Ho & Hc & Hw) & Hag). fold L in Ho, Hc, Hw, Hag. unfold reconstructUpdated. intros H. apply orb_false_iff in H. destruct H as [H1 H2].
    apply negb_false_iff, Nat.eqb_eq in H2.
    assert (HD : dropLoop s (strLstSortAsc (labels L)) L = L).
    { destruct (drop_spec s L Hg Ho) as [Hsub Hsv]. apply ordered_ext; [eapply sublist_ordered; eauto|exact Ho|]. intros b. rewrite (Hsv b).
      split; [tauto|]. intros Hb. split; [exact Hb|]. intros (y & [Hy Hyn] & _).
      assert (existsb (fun lab => negb (strLstExists (dirList s) lab && isSome (manifestOf s lab))) (labels L) = true) as C; [|congruence].
      apply existsb_exists. exists y. split; [exact Hy|]. rewrite manifestExists_test by exact Hg. rewrite Hyn. reflexivity. }
    rewrite HD in H2. fold l0 in H2.
    destruct (reconstruct_spec s hist L Hg Ho Hc Hag) as (A & B & C & D & _). rewrite HD in D. fold l0 in A, B, C, D.
    apply ordered_ext; [exact A|exact Ho|]. intros b. split; [|apply D]. intros Hb.
    assert (Hincl : incl l0 L); [|now apply Hincl].
    apply (NoDup_length_incl (l := L) (l' := l0)).
    - eapply NoDup_map_inv. apply NoDup_labels. exact Ho.
    - lia.
    - exact D.
  Qed.
End Crash.

Lemma prefix_rest_removes q rest x : prefixOf q rest -> removes q x -> removes rest x.
Proof. intros [r ->] H. apply removes_app. now left. Qed.

Lemma dirOps_removes labs x : removes (flat_map removeDirOps labs) x -> In x labs.
Proof.
  unfold removes. rewrite !in_flat_map. intros [(y & Hy & [E|[E|[E|[]]]])|(y & Hy & [E|[E|[E|[]]]])]; try discriminate; now injection E as ->.
Qed.

Lemma dirOps_removal labs : Forall isRemoval (flat_map removeDirOps labs).
Proof. apply Forall_flat_map, Forall_forall. intros x _. repeat constructor. Qed.

Lemma Forall_prefix {A} (P : A -> Prop) p l : prefixOf p l -> Forall P l -> Forall P p.
Proof. intros [r ->] H. now apply Forall_app in H. Qed.

Lemma expireOps_crash c s hist os l1 : repoOk s -> expireOps c s hist = Ok (os, l1) ->
  goodHistory l1 /\
  (forall b, In b l1 -> In b (reconstruct s hist (stInfo s))) /\
  (forall x, removes os x -> ~ In x (map bkLabel l1)) /\
  forall p, prefixOf p os ->
    let s' := applyOps s p in
    let r := reconstruct s' hist (stInfo s') in
    repoOk s' /\ goodHistory r /\ (forall b, In b r -> manifestOf s' (bkLabel b) <> None) /\
    (cDry c = false -> forall b, In b l1 -> In b r) /\ (forall b, In b r -> In b (reconstruct s hist (stInfo s))) /\
    (p = os -> cDry c = false -> r = l1).
Proof.
  intros Hok H. pose proof (l0_good s hist Hok) as Hg0. unfold expireOps in H.
  set (l0 := reconstruct s hist (stInfo s)) in *.
  destruct (expireInfo c l0) as [[[[l1' o1] e1] ar]|k|] eqn:Ei; cbn [bind] in H; try discriminate.
  pose proof (expireInfo_good c l0 Hg0) as Hgood. rewrite Ei in Hgood. destruct Hgood as (Hg1 & Hsub).
  assert (Hmanifest : forall s', repoOk s' -> forall b, In b (reconstruct s' hist (stInfo s')) -> manifestOf s' (bkLabel b) <> None).
  { intros s' (A & (B1 & B2 & _) & C) b Hb. destruct (reconstruct_spec s' hist (stInfo s') A B1 B2 C) as (_ & _ & _ & _ & D).
    assert (U : usable s' hist (stInfo s') (bkLabel b)) by (apply D; now apply in_map). apply usable_manifest in U. destruct U as (m & ->). discriminate. }
  assert (Hsub' : forall b, In b l1' -> In b l0) by (intros b; now apply sublist_in).
  destruct (cDry c) eqn:Hdry.
  - injection H as <- <-. split; [exact Hg1|]. split; [exact Hsub'|]. split; [intros x [[]|[]]|].
    intros p [r Er]. destruct p; [|discriminate]. cbn. fold l0. split; [exact Hok|]. split; [exact Hg0|].
    split; [apply Hmanifest; exact Hok|]. split; [discriminate|]. split; [auto|discriminate].
  - destruct (expireInfo_trace c l0 _ _ _ _ Hg0 Hdry Ei) as [(T1 & T2 & T3) He].
    set (o2 := if reconstructUpdated s hist (stInfo s) || negb (length e1 =? 0)%nat then [PutInfo l1'; PutInfoCopy l1'] else []) in *.
    set (o3 := flat_map removeDirOps (removeExpired (applyOps s (o1 ++ o2)) l1' (cSet c))) in *.
    injection H as <- <-.
    assert (H3 : forall x, removes o3 x -> ~ In x (map bkLabel l1')).
    { intros x Hx. apply dirOps_removes in Hx. unfold removeExpired in Hx. apply filter_In in Hx. destruct Hx as [_ Hx].
      apply negb_true_iff in Hx. intros Hi. destruct (strLstExists_spec (labels l1') x); [discriminate|]. contradiction. }
    assert (H2 : forall x, ~ removes o2 x).
    { intros x. unfold o2, removes. destruct (_ || _); cbn; intros [[E|[E|[]]]|[E|[E|[]]]] || intros [[]|[]]; discriminate. }
    assert (H1 : forall x, removes o1 x -> ~ In x (map bkLabel l1')).
    { intros x Hx Hi. apply in_map_iff in Hi. destruct Hi as (b & <- & Hb). apply (T3 b (Hsub' b Hb)) in Hx. contradiction. }
    assert (Hall : forall x, removes (o1 ++ o2 ++ o3) x -> ~ In x (map bkLabel l1')).
    { intros x. rewrite !removes_app. intros [Hx|[Hx|Hx]]; [auto|exfalso; eapply H2; eauto|auto]. }
    split; [exact Hg1|]. split; [exact Hsub'|]. split; [exact Hall|].
    (* after the first phase with the final list on disk *)
    assert (Hlate : forall q, prefixOf q (o2 ++ o3) -> stInfo (applyOps s (o1 ++ q)) = l1' ->
      repoOk (applyOps s (o1 ++ q)) /\ reconstruct (applyOps s (o1 ++ q)) hist (stInfo (applyOps s (o1 ++ q))) = l1').
    { intros q Hq Hi. apply (phase2 s hist Hok _ l1' (removes (o1 ++ q))); auto.
      - apply goodStore_ops, Hok.
      - intros x. apply manifestOf_ops.
      - intros x. apply manifestOf_ops.
      - apply removes_dec.
      - intros b Hb. fold l0 in Hb. split.
        + intros Hr Hb1. assert (Hr' : removes (o1 ++ o2 ++ o3) (bkLabel b)).
          { rewrite removes_app in *. destruct Hr as [Hr|Hr]; [now left|right; eapply prefix_rest_removes; eauto]. }
          apply (Hall _ Hr'). now apply in_map.
        + intros Hn. apply removes_app. left. now apply T3. }
    assert (Hupd : o2 = [] -> l1' = stInfo s).
    { unfold o2. destruct (_ || _) eqn:E; [discriminate|]. intros _. apply orb_false_iff in E. destruct E as [E1 E2].
      rewrite <- (not_updated s hist Hok E1). apply He. destruct e1; [reflexivity|discriminate]. }
    assert (Hi2 : forall q, prefixOf q (o2 ++ o3) -> q <> [] -> stInfo (applyOps s (o1 ++ q)) = l1').
    { intros q Hq Hne. unfold applyOps. rewrite fold_left_app. fold (applyOps s o1).
      assert (Hrm : forall t s1, prefixOf t o3 -> stInfo (fold_left applyOp t s1) = stInfo s1).
      { intros t s1 Ht. apply stInfo_removal. eapply Forall_prefix; [exact Ht|]. apply dirOps_removal. }
      unfold o2 in Hq, Hupd. destruct (_ || _).
      - destruct Hq as [r Er]. destruct q as [|q1 q]; [contradiction|]. cbn in Er. injection Er as <- Er. cbn [fold_left].
        destruct q as [|q2 q]; [reflexivity|]. cbn in Er. injection Er as <- Er. cbn [fold_left]. rewrite Hrm by (exists r; exact Er). reflexivity.
      - rewrite Hrm by exact Hq. rewrite stInfo_removal by exact T1. symmetry. now apply Hupd. }
    assert (Hfull : stInfo (applyOps s (o1 ++ o2 ++ o3)) = l1').
    { destruct (o2 ++ o3) as [|z zs] eqn:Ez.
      - rewrite app_nil_r, stInfo_removal by exact T1. symmetry. apply Hupd. apply app_eq_nil in Ez. tauto.
      - apply Hi2; [apply prefixOf_refl|discriminate]. }
    intros p Hp. cbn zeta.
    assert (Hcase : repoOk (applyOps s p) /\ goodHistory (reconstruct (applyOps s p) hist (stInfo (applyOps s p))) /\
      (forall b, In b l1' -> In b (reconstruct (applyOps s p) hist (stInfo (applyOps s p)))) /\
      (forall b, In b (reconstruct (applyOps s p) hist (stInfo (applyOps s p))) -> In b l0)).
    { destruct (prefixOf_app _ _ _ Hp) as [Hp1|(q & -> & Hq)].
      - destruct (phase1 s hist Hok (applyOps s p) (removes p)) as (A & B & C).
        + apply goodStore_ops, Hok.
        + apply stInfo_removal. eapply Forall_prefix; eauto.
        + intros x. apply manifestOf_ops.
        + intros x. apply manifestOf_ops.
        + apply removes_dec.
        + intros x b. fold l0. apply T2, Hp1.
        + split; [exact A|]. split; [exact B|]. split; intros b Hb.
          * apply C. fold l0. split; [auto|]. intros Hr. assert (removes o1 (bkLabel b)) by (eapply prefix_rest_removes; eauto).
            eapply H1; [eassumption|]. now apply in_map.
          * apply C in Hb. tauto.
      - destruct q as [|q1 q].
        + destruct (phase1 s hist Hok (applyOps s (o1 ++ [])) (removes o1)) as (A & B & C); rewrite ?app_nil_r.
          * apply goodStore_ops, Hok.
          * now apply stInfo_removal.
          * intros x. apply manifestOf_ops.
          * intros x. apply manifestOf_ops.
          * apply removes_dec.
          * intros x b. fold l0. apply T2, prefixOf_refl.
          * rewrite app_nil_r in *. split; [exact A|]. split; [exact B|]. split; intros b Hb.
            -- apply C. fold l0. split; [auto|]. intros Hr. eapply H1; [eassumption|]. now apply in_map.
            -- apply C in Hb. tauto.
        + destruct (Hlate (q1 :: q) Hq) as [A B]. { apply Hi2; [exact Hq|discriminate]. }
          rewrite B. split; [exact A|]. split; [exact Hg1|]. split; auto. }
    destruct Hcase as (A & B & C & D). split; [exact A|]. split; [exact B|]. split; [now apply Hmanifest|]. split; [auto|]. split; [exact D|].
    intros -> _. apply Hlate; [apply prefixOf_refl|exact Hfull].
Qed.
