From Verif Require Import Base Str ExpireModel ExpireSpec ExpireProof WalExpireModel WalExpireSpec.
From Coq Require Import Permutation Sorted.
Open Scope Z_scope.

#[local] Arguments seg : simpl never.

(** * One archive id *)

Definition keeps (ranges : list range) (x : str) : Prop :=
  exists r, In r ranges /\ sle (rgStart r) x /\ forall e, rgStop r = Some e -> sle x e.

Lemma fileIn_spec f r : fileIn f r = true <-> sle (rgStart r) (seg f) /\ forall e, rgStop r = Some e -> sle (seg f) e.
Proof.
  unfold fileIn, seg. rewrite andb_true_iff, strLeb_le. destruct (rgStop r) as [e|].
  - rewrite strLeb_le. split; intros [H1 H2]; split; auto. intros e' E. now injection E as <-.
  - split; intros [H1 _]; split; auto. discriminate.
Qed.
Lemma keeps_file ranges f : existsb (fileIn f) ranges = true <-> keeps ranges (seg f).
Proof.
  rewrite existsb_exists. unfold keeps. split.
  - intros (r & Hr & H). apply fileIn_spec in H. exists r. tauto.
  - intros (r & Hr & H). exists r. split; [exact Hr|]. now apply fileIn_spec.
Qed.

Lemma firstn_firstn16 f : firstn 16 (seg f) = firstn 16 f.
Proof. unfold seg. rewrite firstn_firstn. reflexivity. Qed.

(** A file of a range keeps its path. *)
Lemma keeps_path ranges f : keeps ranges (seg f) -> existsb (pathIn (firstn 16 f)) ranges = true.
Proof.
  intros (r & Hr & H1 & H2). apply existsb_exists. exists r. split; [exact Hr|]. unfold pathIn.
  rewrite <- (firstn_firstn16 f). apply andb_true_iff. split; [apply strLeb_le, prefix_mono, H1|].
  destruct (rgStop r) as [e|]; [|reflexivity]. apply strLeb_le, prefix_mono. auto.
Qed.

Lemma expireWalDir_in aid ranges max d o : In o (expireWalDir aid ranges max d) ->
  o = RmWalPath aid (wdPath d) \/ exists f, o = RmWal aid (wdPath d) f.
Proof.
  unfold expireWalDir. destruct (negb _); [intros [<-|[]]; auto|]. destruct (match max with None => _ | Some m => _ end); [|intros []].
  intros H. apply in_map_iff in H. destruct H as (f & <- & _). eauto.
Qed.

Lemma expireArchiveId_in a ranges max o : In o (expireArchiveId a ranges max) ->
  exists d, In d (adWal a) /\ In o (expireWalDir (adId a) ranges max d).
Proof.
  unfold expireArchiveId. rewrite in_flat_map. intros (d & Hd & Ho). apply sortBy_in, filter_In in Hd. exists d. tauto.
Qed.

Definition maxOk (ranges : list range) (max : option str) : Prop :=
  forall m, max = Some m -> In (mkRange m None) ranges.

Lemma expireArchiveId_spec a ranges max d f : NoDup (map wdPath (adWal a)) -> maxOk ranges max ->
  In d (adWal a) -> isWalPath (wdPath d) = true -> In f (wdFiles d) -> isWalFile f = true -> firstn 16 f = wdPath d ->
  (walRemoved (expireArchiveId a ranges max) (adId a) (wdPath d) f <-> ~ keeps ranges (seg f)).
Proof.
  intros Hnd Hmax Hd Hp Hf Hwf Hpre.
  assert (Hsel : forall o, (o = RmWalPath (adId a) (wdPath d) \/ o = RmWal (adId a) (wdPath d) f) ->
            (In o (expireArchiveId a ranges max) <-> In o (expireWalDir (adId a) ranges max d))).
  { intros o Ho. split.
    - intros H. apply expireArchiveId_in in H. destruct H as (d' & Hd' & H). assert (d' = d); [|congruence].
      apply expireWalDir_in in H. assert (wdPath d' = wdPath d) by (destruct Ho as [->| ->], H as [E|(g & E)]; congruence).
      clear - Hnd Hd Hd' H0. induction (adWal a) as [|x r IH]; [destruct Hd|]. cbn in Hnd. inversion Hnd as [|? ? Hni Hn]; subst.
      destruct Hd as [->|Hd], Hd' as [->|Hd']; auto; exfalso; apply Hni; [rewrite <- H0|rewrite H0]; now apply in_map.
    - intros H. unfold expireArchiveId. apply in_flat_map. exists d. split; [|exact H]. apply sortBy_in, filter_In. auto. }
  unfold walRemoved. rewrite (Hsel _ (or_introl eq_refl)), (Hsel _ (or_intror eq_refl)).
  assert (Hna : ~ In (RmArchive (adId a)) (expireArchiveId a ranges max)).
  { intros H. apply expireArchiveId_in in H. destruct H as (d' & _ & H). apply expireWalDir_in in H. destruct H as [E|(g & E)]; discriminate. }
  unfold expireWalDir. destruct (existsb (pathIn (wdPath d)) ranges) eqn:Ep; cbn [negb].
  - assert (Hscan : ~ keeps ranges (seg f) -> match max with None => true | Some m => strLeb (wdPath d) (firstn 16 m) end = true).
    { intros Hk. destruct max as [m|]; [|reflexivity]. apply strLeb_le, sle_not_lt. intros Hlt. apply Hk.
      exists (mkRange m None). split; [now apply Hmax|]. cbn [rgStart rgStop]. split; [|discriminate].
      apply slt_le. apply (prefix_slt 16). now rewrite firstn_firstn16, Hpre. }
    split.
    + intros [H|[H|H]] Hk; [contradiction|destruct (match max with None => _ | Some m => _ end)|destruct (match max with None => _ | Some m => _ end)];
        try (destruct H; fail); apply in_map_iff in H; destruct H as (g & E & Hg); try discriminate.
      injection E as ->. apply filter_In in Hg. destruct Hg as [_ Hg]. apply negb_true_iff in Hg. apply keeps_file in Hk. congruence.
    + intros Hk. right. right. rewrite (Hscan Hk). apply in_map, filter_In. split.
      * apply strLstSortAsc_in, filter_In. auto.
      * apply negb_true_iff. destruct (existsb (fileIn f) ranges) eqn:E; [|reflexivity]. apply keeps_file in E. contradiction.
  - split; [|intros _; right; left; now left]. intros _ Hk. apply keeps_path in Hk. rewrite Hpre in Hk. congruence.
Qed.

(** * Selection of the retention backup *)

Lemma skipn_rev_firstn {A} n (g : list A) : rev (skipn (length g - n) g) = firstn n (rev g).
Proof. symmetry. apply firstn_rev. Qed.
Lemma newest_desc (n : nat) (g : list str) : ssorted g ->
  firstn (Nat.min n (length g)) (strLstSortDesc g) = rev (newest n g).
Proof.
  intros H. rewrite strLstSortDesc_rev by exact H. unfold newest.
  rewrite skipn_rev_firstn. destruct (Nat.le_ge_cases n (length g)) as [L|L].
  - now rewrite Nat.min_l by exact L.
  - rewrite Nat.min_r by exact L. rewrite !firstn_all2; rewrite ?rev_length; auto.
Qed.

Section Local.
  Variables (t : retType) (n : nat) (l : list backup) (pg : Z).
  Hypothesis Ho : ordered l.
  Let G := retLabels t l.
  Lemma G_sorted : ssorted G. Proof. apply StronglySorted_filter, Ho. Qed.
  Let global := strLstSortDesc (labelList (retLabel t) l).
  Lemma global_rev : rev global = G.
  Proof. unfold global. change (labelList (retLabel t) l) with G. rewrite strLstSortDesc_rev by apply G_sorted. apply rev_involutive. Qed.

  Lemma uniq b c : In b l -> In c l -> bkLabel b = bkLabel c -> b = c.
  Proof. apply label_inj, NoDup_labels, Ho. Qed.

  Definition ofPg (x : str) : Prop := exists b, In b l /\ bkLabel b = x /\ bkPgId b = pg.

  Lemma pick_one x : In x (map bkLabel l) -> forall y,
    map bkLabel (filter (fun b => strEqb (bkLabel b) x && (bkPgId b =? pg)) l) = y -> (y = [x] /\ ofPg x) \/ (y = [] /\ ~ ofPg x).
  Proof.
    intros Hx y <-. apply in_map_iff in Hx. destruct Hx as (b & Eb & Hb).
    assert (Hf : forall c, In c (filter (fun b => strEqb (bkLabel b) x && (bkPgId b =? pg)) l) <-> c = b /\ bkPgId b = pg).
    { intros c. rewrite filter_In, andb_true_iff, strEqb_eq, Z.eqb_eq. split.
      - intros (H1 & H2 & H3). assert (c = b) by (apply uniq; congruence). subst. auto.
      - intros [-> H]. auto. }
    assert (Hnd : NoDup (filter (fun b => strEqb (bkLabel b) x && (bkPgId b =? pg)) l)).
    { apply NoDup_filter. eapply NoDup_map_inv. apply NoDup_labels, Ho. }
    destruct (filter _ l) as [|c [|c' r]].
    - right. split; [reflexivity|]. intros (c & Hc & Ec & Hp). apply (Hf b). assert (c = b) by (apply uniq; congruence). subst. auto.
    - left. destruct (proj1 (Hf c) (or_introl eq_refl)) as [-> Hp]. cbn. split; [now rewrite Eb|]. exists b. auto.
    - exfalso. destruct (proj1 (Hf c) (or_introl eq_refl)) as [-> _]. destruct (proj1 (Hf c') (or_intror (or_introl eq_refl))) as [-> _].
      inversion Hnd as [|? ? H _]. apply H. now left.
  Qed.

  (** localRetention keeps order *)
  Lemma localRet_sub g : (forall x, In x g -> In x (map bkLabel l)) -> ssorted g ->
    let r := flat_map (fun x => map bkLabel (filter (fun b => strEqb (bkLabel b) x && (bkPgId b =? pg)) l)) g in
    ssorted r /\ forall x, In x r <-> In x g /\ ofPg x.
  Proof.
    induction g as [|a g IH]; intros Hin Hs; cbn [flat_map]; cbn zeta; [split; [constructor|cbn; tauto]|].
    inversion Hs as [|? ? Hs' Hf]; subst. destruct (IH (fun x Hx => Hin x (or_intror Hx)) Hs') as [R1 R2]. rewrite Forall_forall in Hf.
    destruct (pick_one a (Hin a (or_introl eq_refl)) _ eq_refl) as [[-> Ha]|[-> Ha]].
    - cbn [app]. split.
      + constructor; [exact R1|]. apply Forall_forall. intros x Hx. apply R2 in Hx. apply Hf. tauto.
      + intros x. cbn [In]. rewrite R2. split; [intros [<-|[H1 H2]]; tauto|intros [[<-|H1] H2]; tauto].
    - cbn [app]. split; [exact R1|]. intros x. rewrite R2. cbn [In]. split; [tauto|]. intros [[<-|H1] H2]; tauto.
  Qed.

  Lemma G_labels x : In x G -> In x (map bkLabel l).
  Proof. unfold G, retLabels. rewrite filter_In. tauto. Qed.

  Lemma local_spec : ssorted (localRetention l global pg) /\ forall x, In x (localRetention l global pg) <-> In x G /\ ofPg x.
  Proof. unfold localRetention. rewrite global_rev. apply localRet_sub; [apply G_labels|apply G_sorted]. Qed.

  Lemma inter_spec g local : ssorted g -> NoDup local ->
    let r := flat_map (fun x => filter (strEqb x) local) g in ssorted r /\ forall x, In x r <-> In x g /\ In x local.
  Proof.
    intros Hs Hnd. induction g as [|a g IH]; cbn [flat_map]; cbn zeta; [split; [constructor|cbn; tauto]|].
    inversion Hs as [|? ? Hs' Hf]; subst. destruct (IH Hs') as [R1 R2]. rewrite Forall_forall in Hf.
    assert (Hone : (filter (strEqb a) local = [a] /\ In a local) \/ (filter (strEqb a) local = [] /\ ~ In a local)).
    { assert (Hfi : forall c, In c (filter (strEqb a) local) <-> c = a /\ In a local).
      { intros c. rewrite filter_In, strEqb_eq. split; [intros [H ->]; auto|intros [-> H]; auto]. }
      pose proof (NoDup_filter (strEqb a) local Hnd) as Hn.
      destruct (filter (strEqb a) local) as [|c [|c' r]].
      - right. split; [reflexivity|]. intros H. apply (Hfi a). auto.
      - left. destruct (proj1 (Hfi c) (or_introl eq_refl)) as [-> H]. auto.
      - exfalso. destruct (proj1 (Hfi c) (or_introl eq_refl)) as [-> _]. destruct (proj1 (Hfi c') (or_intror (or_introl eq_refl))) as [-> _].
        inversion Hn as [|? ? H _]. apply H. now left. }
    destruct Hone as [[-> Ha]|[-> Ha]]; cbn [app].
    - split.
      + constructor; [exact R1|]. apply Forall_forall. intros x Hx. apply R2 in Hx. apply Hf. tauto.
      + intros x. cbn [In]. rewrite R2. split; [intros [<-|[H1 H2]]; tauto|intros [[<-|H1] H2]; tauto].
    - split; [exact R1|]. intros x. rewrite R2. cbn [In]. split; [tauto|]. intros [[<-|H1] H2]; tauto.
  Qed.

  Let globalArchive := firstn (Nat.min n (length global)) global.
  Lemma globalArchive_rev : rev globalArchive = newest n G.
  Proof.
    unfold globalArchive, global. change (labelList (retLabel t) l) with G.
    replace (length (strLstSortDesc G)) with (length G) by (symmetry; apply Permutation_length, strLstSortDesc_perm).
    rewrite newest_desc by apply G_sorted. apply rev_involutive.
  Qed.
  Lemma newest_in {A} k (g : list A) x : In x (newest k g) -> In x g.
  Proof. unfold newest. intros H. rewrite <- (firstn_skipn (length g - k) g). apply in_or_app. now right. Qed.
  Lemma newest_sorted g : ssorted g -> ssorted (newest n g).
  Proof.
    unfold newest, ssorted. intros H. rewrite <- (firstn_skipn (length g - n) g) in H. apply StronglySorted_app_inv in H. tauto.
  Qed.

  Lemma localArchive_spec : let local := localRetention l global pg in
    ssorted (localArchive globalArchive local) /\
    forall x, In x (localArchive globalArchive local) <-> In x (newest n G) /\ ofPg x.
  Proof.
    cbn zeta. unfold localArchive. rewrite globalArchive_rev. destruct local_spec as [L1 L2].
    destruct (inter_spec (newest n G) (localRetention l global pg)) as [R1 R2].
    - apply newest_sorted, G_sorted.
    - now apply ssorted_NoDup.
    - split; [exact R1|]. intros x. rewrite R2, L2. split; [tauto|]. intros [H1 H2]. split; [exact H1|]. split; [|exact H2].
      eapply newest_in; eauto.
  Qed.

  Lemma sorted_head_le a g x : ssorted (a :: g) -> In x (a :: g) -> sle a x.
  Proof.
    intros Hs [<-|Hx]; [apply sle_refl|]. inversion Hs as [|? ? _ Hf]. rewrite Forall_forall in Hf. now apply slt_le, Hf.
  Qed.
  Lemma sorted_last_ge a g x : ssorted (rev (a :: g)) -> In x (a :: g) -> sle x a.
  Proof.
    intros Hs Hx. cbn in Hs. apply StronglySorted_app_inv in Hs. destruct Hs as (_ & _ & Hs).
    destruct Hx as [<-|Hx]; [apply sle_refl|]. apply slt_le, Hs; [now apply -> in_rev|now left].
  Qed.

  (** The label the code picks is that of the selected backup. *)
  Lemma selected_code x rest : rev (localRetention l global pg) = x :: rest ->
    let sel := match localArchive globalArchive (localRetention l global pg) with y :: _ => y | [] => x end in
    exists r, find (fun b => strEqb (bkLabel b) sel) (rev l) = Some r /\ selected t n l pg r.
  Proof.
    intros Hrev. cbn zeta. destruct local_spec as [L1 L2]. destruct localArchive_spec as [A1 A2]. cbn zeta in A1, A2.
    set (sel := match localArchive globalArchive (localRetention l global pg) with y :: _ => y | [] => x end).
    assert (Hlast : forall y, In y (localRetention l global pg) -> sle y x).
    { intros y Hy. apply (sorted_last_ge x rest); [rewrite <- Hrev, rev_involutive; exact L1|]. rewrite <- Hrev. now apply -> in_rev. }
    assert (Hxin : In x (localRetention l global pg)) by (apply in_rev; rewrite Hrev; now left).
    assert (Hsel : In sel G /\ ofPg sel /\
      ((In sel (newest n G) /\ forall y, ofPg y -> In y (newest n G) -> sle sel y) \/
       ((forall y, ofPg y -> ~ In y (newest n G)) /\ forall y, ofPg y -> In y G -> sle y sel))).
    { unfold sel. destruct (localArchive globalArchive (localRetention l global pg)) as [|y r] eqn:E.
      - apply L2 in Hxin. split; [tauto|]. split; [tauto|]. right. split.
        + intros y Hy Hn. apply (A2 y). auto.
        + intros y Hy Hg. apply Hlast, L2. auto.
      - destruct (proj1 (A2 y) (or_introl eq_refl)) as [H1 H2]. split; [eapply newest_in; eauto|]. split; [exact H2|]. left.
        split; [exact H1|]. intros z Hz Hzn. eapply sorted_head_le; [exact A1|]. apply A2. auto. }
    clearbody sel. destruct Hsel as (S1 & (r & Hr & Er & Hpg) & S3). exists r. split.
    - destruct (find (fun b => strEqb (bkLabel b) sel) (rev l)) as [c|] eqn:Ef.
      + apply find_some in Ef. destruct Ef as [Hc Ec]. apply strEqb_eq in Ec. apply in_rev in Hc. f_equal. apply uniq; congruence.
      + exfalso. pose proof (find_none _ _ Ef r) as H. cbn in H. rewrite Er, strEqb_refl in H. discriminate H. now apply -> in_rev.
    - split; [exact Hr|]. split; [exact Hpg|]. rewrite Er. split; [exact S1|]. destruct S3 as [[H1 H2]|[H1 H2]]; [left|right]; (split; [|]).
      + exact H1.
      + intros b Hb Hbp Hbn. apply H2; [exists b; auto|exact Hbn].
      + intros b Hb Hbp. apply H1. exists b. auto.
      + intros b Hb Hbp Hbn. apply H2; [exists b; auto|exact Hbn].
  Qed.

  Lemma selected_unique r r' : selected t n l pg r -> selected t n l pg r' -> r = r'.
  Proof.
    intros (A & B & C & D) (A' & B' & C' & D'). apply uniq; auto. apply sle_antisym.
    - destruct D as [[D1 D2]|[D1 D2]], D' as [[D1' D2']|[D1' D2']].
      + exact (D2 r' A' B' D1').
      + exfalso. exact (D1' r A B D1).
      + exfalso. exact (D1 r' A' B' D1').
      + exact (D2' r A B C).
    - destruct D as [[D1 D2]|[D1 D2]], D' as [[D1' D2']|[D1' D2']].
      + exact (D2' r A B D1).
      + exfalso. exact (D1' r A B D1).
      + exfalso. exact (D1 r' A' B' D1').
      + exact (D2 r' A' B' C').
  Qed.

  Lemma counted_local : counted t l pg <-> localRetention l global pg <> [].
  Proof.
    destruct local_spec as [_ L2]. unfold counted. split.
    - intros (b & Hb & Hp & Hg) E. assert (In (bkLabel b) []) as []. rewrite <- E. apply L2. split; [exact Hg|exists b; auto].
    - intros H. destruct (localRetention l global pg) as [|x r]; [contradiction|].
      destruct (proj1 (L2 x) (or_introl eq_refl)) as [H1 (b & Hb & E & Hp)]. exists b. rewrite E. auto.
  Qed.
End Local.

(** * One archive directory *)

Lemma removed_app o1 o2 aid p f : walRemoved (o1 ++ o2) aid p f <-> walRemoved o1 aid p f \/ walRemoved o2 aid p f.
Proof. unfold walRemoved. rewrite !in_app_iff. tauto. Qed.

Lemma expireArchiveDir_spec c l current h a ops d f : ordered l ->
  NoDup (map wdPath (adWal a)) -> In d (adWal a) -> isWalPath (wdPath d) = true -> In f (wdFiles d) -> isWalFile f = true ->
  firstn 16 f = wdPath d ->
  let global := strLstSortDesc (labelList (retLabel (wcType c)) l) in
  expireArchiveDir c l global (firstn (Nat.min (wcRetention c) (length global)) global) current h a = Ok ops ->
  (walRemoved ops (adId a) (wdPath d) f <-> dirRemoves c l current (phId (ahPg h)) (seg f)).
Proof.
  intros Ho Hnd Hd Hp Hf Hwf Hpre. cbn zeta. set (pg := phId (ahPg h)). unfold expireArchiveDir. fold pg.
  set (global := strLstSortDesc (labelList (retLabel (wcType c)) l)).
  pose proof (counted_local (wcType c) l pg Ho) as Hcnt. fold global in Hcnt.
  destruct (rev (localRetention l global pg)) as [|x rest] eqn:Er.
  - assert (Hnc : ~ counted (wcType c) l pg).
    { rewrite Hcnt. intros H. apply H. rewrite <- (rev_involutive (localRetention l global pg)), Er. reflexivity. }
    unfold dirRemoves. destruct (wcBefore c) as [w|] eqn:Ew.
    + destruct (Z.eqb_spec current pg) as [Ec|Ec]; intros H; injection H as <-.
      * rewrite expireArchiveId_spec by (auto; intros m E; discriminate). unfold keeps. split.
        -- intros Hk. split; [contradiction|]. intros _ _. exists w. split; [reflexivity|]. destruct (slt_total (seg f) w) as [H|[H|H]]; [exact H| |].
           ++ exfalso. apply Hk. exists (mkRange w None). cbn. split; [now left|]. split; [rewrite H; apply sle_refl|discriminate].
           ++ exfalso. apply Hk. exists (mkRange w None). cbn. split; [now left|]. split; [now apply slt_le|discriminate].
        -- intros [_ H] (r & [<-|[]] & H1 & _). cbn in H1. destruct (H Hnc Ec) as (w' & E & Hlt). injection E as <-. apply sle_not_lt in H1. contradiction.
      * split; [|intros _; left; now left]. intros _. split; [contradiction|]. intros _ E. contradiction.
    + destruct (Z.eqb_spec current pg) as [Ec|Ec]; intros H; injection H as <-.
      * split; [intros [[]|[[]|[]]]|]. intros [_ H]. destruct (H Hnc Ec) as (w' & E & _). discriminate.
      * split; [|intros _; left; now left]. intros _. split; [contradiction|]. intros _ E. contradiction.
  - assert (Hc : counted (wcType c) l pg).
    { apply Hcnt. intros E. rewrite E in Er. discriminate. }
    destruct (selected_code (wcType c) (wcRetention c) l pg Ho x rest Er) as (r & Ef & Hsel). fold global in Ef. cbn zeta in Ef.
    rewrite Ef. pose proof Hsel as (Hrl & Hrp & _). unfold dirRemoves.
    destruct (bkArchStart r) as [start|] eqn:Es.
    + intros H. injection H as <-. rewrite removed_app.
      assert (Hhist : forall fs, ~ walRemoved (map (RmWalHistory (adId a)) fs) (adId a) (wdPath d) f).
      { intros fs [H|[H|H]]; apply in_map_iff in H; destruct H as (g & E & _); discriminate. }
      match goal with |- context [expireArchiveId a ?R _] => set (ranges := R) end.
      assert (Hmax : maxOk ranges (Some start)).
      { intros m E. injection E as <-. unfold ranges. apply in_or_app. left. apply in_flat_map. exists r. split.
        - apply filter_In. split; [exact Hrl|]. now apply Z.eqb_eq.
        - unfold backupRange. rewrite (proj2 (strLeb_le _ _) (sle_refl (bkLabel r))), Es, strEqb_refl. now left. }
      assert (Hkeep : forall y, keeps ranges y <->
                sle start y \/ olderInRange l pg r y \/ exists w, wcBefore c = Some w /\ slt w start /\ sle w y /\ sle y start).
      { intros y. unfold keeps. split.
        - intros (g & Hg & H1 & H2). unfold ranges in Hg. apply in_app_or in Hg. destruct Hg as [Hg|Hg].
          + apply in_flat_map in Hg. destruct Hg as (b & Hb & Hg). apply filter_In in Hb. destruct Hb as [Hb Hbp]. apply Z.eqb_eq in Hbp.
            unfold backupRange in Hg. destruct (strLeb_spec (bkLabel b) (bkLabel r)) as [Hle|]; [|destruct Hg].
            destruct (bkArchStart b) as [s|] eqn:Eb; [|destruct Hg]. destruct Hg as [<-|[]]. cbn in H1, H2.
            destruct (strEqb_spec (bkLabel b) (bkLabel r)) as [E|E].
            * assert (b = r) by (eapply uniq; eauto). subst b. left. congruence.
            * right. left. exists b. apply sle_lt_eq in Hle. destruct Hle as [Hlt|]; [|contradiction]. repeat split; auto. exists s. auto.
          + destruct (wcBefore c) as [w|]; [|destruct Hg]. destruct (strLtb_spec w start) as [Hlt|]; [|destruct Hg].
            destruct Hg as [<-|[]]. cbn in H1, H2. right. right. exists w. auto.
        - intros [H|[(b & Hb & Hbp & Hlt & s & Eb & H1 & H2)|(w & Ew & Hlt & H1 & H2)]].
          + exists (mkRange start None). split; [now apply Hmax|]. cbn. split; [exact H|discriminate].
          + exists (mkRange s (bkArchStop b)). split; [|cbn; auto]. unfold ranges. apply in_or_app. left. apply in_flat_map. exists b. split.
            * apply filter_In. split; [exact Hb|]. now apply Z.eqb_eq.
            * unfold backupRange. rewrite (proj2 (strLeb_le _ _) (slt_le _ _ Hlt)), Eb.
              destruct (strEqb_spec (bkLabel b) (bkLabel r)) as [E|E]; [|now left]. rewrite E in Hlt. now apply slt_irrefl in Hlt.
          + exists (mkRange w (Some start)). split; [|cbn; split; [exact H1|intros e E; now injection E as <-]].
            unfold ranges. apply in_or_app. right. rewrite Ew, (proj2 (strLtb_lt _ _) Hlt). now left. }
      rewrite expireArchiveId_spec by auto. rewrite (Hkeep (seg f)). split.
      * intros [H|H]; [|exfalso; eapply Hhist; eauto]. split; [|intros Hn; contradiction]. intros _. exists r, start.
        assert (Hlt : slt (seg f) start). { destruct (slt_total (seg f) start) as [L|[L|L]]; [exact L| |]; exfalso; apply H; left; [rewrite L; apply sle_refl|now apply slt_le]. }
        split; [exact Hsel|]. split; [exact Es|]. split; [exact Hlt|]. split; [tauto|].
        intros w Ew. destruct (slt_total (seg f) w) as [L|L]; [exact L|]. exfalso.
        assert (Hwf' : sle w (seg f)) by (apply sle_lt_eq; destruct L; auto).
        apply H. right. right. exists w. split; [exact Ew|]. split; [eapply sle_slt_trans; eauto|]. split; [exact Hwf'|now apply slt_le].
      * intros [H _]. left. destruct (H Hc) as (r' & start' & Hsel' & Es' & Hlt & Hk & Hw).
        assert (r' = r) by (eapply selected_unique; eauto). subst r'. assert (start' = start) by congruence. subst start'.
        intros [H1|[H1|(w & Ew & H1 & H2 & H3)]].
        -- apply sle_not_lt in H1. contradiction.
        -- contradiction.
        -- apply Hw in Ew. apply sle_not_lt in H2. contradiction.
    + intros H. injection H as <-. split; [intros [[]|[[]|[]]]|]. intros [H _]. destruct (H Hc) as (r' & start' & Hsel' & Es' & _).
      assert (r' = r) by (eapply selected_unique; eauto). subst r'. congruence.
Qed.

(** * All archive directories *)

Lemma mapOps_in {A} (g : A -> res (list walOp)) l ops : mapOps g l = Ok ops ->
  forall o, In o ops <-> exists x o', In x l /\ g x = Ok o' /\ In o o'.
Proof.
  revert ops; induction l as [|a l IH]; intros ops H; cbn [mapOps] in H.
  - injection H as <-. intros o. split; [intros []|intros (x & ? & [] & _)].
  - destruct (g a) as [o1| |] eqn:E1; cbn [bind] in H; try discriminate. destruct (mapOps g l) as [o2| |]; cbn [bind] in H; try discriminate.
    injection H as <-. intros o. rewrite in_app_iff, (IH o2 eq_refl). split.
    + intros [Ho|(x & o' & Hx & Hg & Ho)]; [exists a, o1; cbn; auto|exists x, o'; cbn; auto].
    + intros (x & o' & [<-|Hx] & Hg & Ho); [left; congruence|right; eauto].
Qed.

(** Operations of one directory mention only its id. *)
Definition opAid (o : walOp) : str := match o with RmArchive a | RmWalPath a _ | RmWal a _ _ | RmWalHistory a _ => a end.
Lemma dir_aid c l g ga cur h a ops : expireArchiveDir c l g ga cur h a = Ok ops -> forall o, In o ops -> opAid o = adId a.
Proof.
  assert (Hid : forall rs m o, In o (expireArchiveId a rs m) -> opAid o = adId a).
  { intros rs m o H. apply expireArchiveId_in in H. destruct H as (d & _ & H). apply expireWalDir_in in H. destruct H as [->|(f & ->)]; reflexivity. }
  unfold expireArchiveDir. destruct (rev _) as [|x rest].
  - destruct (wcBefore c); destruct (cur =? _); intros H o Ho; injection H as <-; first [eapply Hid; eassumption | destruct Ho as [<-|[]]; reflexivity | destruct Ho].
  - destruct (find _ _) as [r|]; [|intros H o Ho; injection H as <-; destruct Ho].
    destruct (bkArchStart r); intros H o Ho; injection H as <-; [|destruct Ho].
    apply in_app_or in Ho. destruct Ho as [Ho|Ho]; [eauto|]. apply in_map_iff in Ho. destruct Ho as (f & <- & _). reflexivity.
Qed.

Lemma NoDup_map_inj {A B} (g : A -> B) l x y : NoDup (map g l) -> In x l -> In y l -> g x = g y -> x = y.
Proof.
  induction l as [|a l IH]; cbn; [tauto|]. intros Hn Hx Hy E. inversion Hn as [|? ? Hni Hn']; subst.
  destruct Hx as [->|Hx], Hy as [->|Hy]; auto; exfalso; apply Hni; [rewrite E|rewrite <- E]; now apply in_map.
Qed.

Lemma retLabels_length c l : length (strLstSortDesc (labelList (retLabel (wcType c)) l)) = length (retLabels (wcType c) l).
Proof. apply Permutation_length, strLstSortDesc_perm. Qed.

Lemma active_code c l :
  (Nat.eqb (wcRetention c) 0 = false /\
   (match wcBefore c with Some _ => true | None => false end
    || (negb (Nat.eqb (length (strLstSortDesc (labelList (retLabel (wcType c)) l))) 0)
        && (wcRetention c <=? length (strLstSortDesc (labelList (retLabel (wcType c)) l)))%nat)) = true) <-> expiryActive c l.
Proof.
  unfold expiryActive. rewrite retLabels_length. set (n := length (retLabels (wcType c) l)).
  rewrite Nat.eqb_neq, orb_true_iff, andb_true_iff, negb_true_iff, Nat.eqb_neq, Nat.leb_le.
  destruct (wcBefore c); split; intros [H1 H2]; (split; [lia|]).
  - left. discriminate.
  - now left.
  - right. destruct H2 as [H2|H2]; [discriminate|lia].
  - right. destruct H2 as [H2|H2]; [contradiction|lia].
Qed.

Lemma removeExpiredArchive_spec c l ah bh current dirs ops h a d f :
  ordered l -> goodArchive ah dirs -> removeExpiredArchive c l ah bh current dirs = Ok ops ->
  In h ah -> In a dirs -> adId a = ahId h -> In d (adWal a) -> isWalPath (wdPath d) = true -> In f (wdFiles d) -> isWalFile f = true ->
  (walRemoved ops (adId a) (wdPath d) f <-> expiryActive c l /\ dirRemoves c l current (phId (ahPg h)) (seg f)).
Proof.
  intros Ho (Hn1 & Hn2 & Hga) H Hh Ha Eid Hd Hp Hf Hwf. destruct (Hga a Ha) as [Hnd Hpre]. unfold removeExpiredArchive in H.
  pose proof (active_code c l) as Hact.
  destruct (Nat.eqb (wcRetention c) 0) eqn:E0.
  { injection H as <-. split; [intros [[]|[[]|[]]]|]. intros [Hx _]. apply Hact in Hx. destruct Hx; discriminate. }
  cbn zeta in H. set (global := strLstSortDesc (labelList (retLabel (wcType c)) l)) in *.
  destruct (match wcBefore c with Some _ => true | None => false end || _) eqn:E1.
  2:{ injection H as <-. split; [intros [[]|[[]|[]]]|]. intros [Hx _]. apply Hact in Hx. destruct Hx; discriminate. }
  destruct (historyMatch ah bh) as [[]| |]; cbn [bind] in H; try discriminate.
  pose proof (mapOps_in _ _ _ H) as Hin.
  assert (Hfind : find (fun x => strEqb (adId x) (ahId h)) dirs = Some a).
  { destruct (find _ dirs) as [b|] eqn:Ef.
    - apply find_some in Ef. destruct Ef as [Hb Eb]. apply strEqb_eq in Eb. f_equal. apply (NoDup_map_inj adId dirs); auto. congruence.
    - pose proof (find_none _ _ Ef a Ha) as Hx. cbn in Hx. rewrite Eid, strEqb_refl in Hx. discriminate. }
  assert (Hops : exists oh, expireArchiveDir c l global (firstn (Nat.min (wcRetention c) (length global)) global) current h a = Ok oh).
  { clear Hin. revert ops H. assert (Hh' : In h (rev ah)) by now apply -> in_rev. induction (rev ah) as [|x r IH]; [destruct Hh'|].
    intros ops H. cbn [mapOps] in H. destruct Hh' as [->|Hh'].
    - rewrite Hfind in H. destruct (expireArchiveDir c l global _ current h a) as [oh| |]; cbn [bind] in H; try discriminate. eauto.
    - destruct (match find _ dirs with None => Ok [] | Some a0 => _ end) as [o1| |]; cbn [bind] in H; try discriminate.
      destruct (mapOps _ r) as [o2| |] eqn:E2; cbn [bind] in H; try discriminate. exact (IH Hh' o2 eq_refl). }
  destruct Hops as (oh & Eoh).
  assert (Hiff : walRemoved ops (adId a) (wdPath d) f <-> walRemoved oh (adId a) (wdPath d) f).
  { assert (Hone : forall o, opAid o = adId a -> (In o ops <-> In o oh)).
    { intros o Ea. rewrite Hin. split.
      - intros (x & o' & Hx & Ex & Hoo). destruct (find (fun y => strEqb (adId y) (ahId x)) dirs) as [b|] eqn:Eb.
        + pose proof (dir_aid _ _ _ _ _ _ _ _ Ex o Hoo) as Eb'. apply find_some in Eb. destruct Eb as [Hb Eb]. apply strEqb_eq in Eb.
          assert (x = h). { apply (NoDup_map_inj ahId ah); auto; [now apply in_rev|congruence]. } subst x.
          assert (b = a). { apply (NoDup_map_inj adId dirs); auto. congruence. } subst b. congruence.
        + injection Ex as <-. destruct Hoo.
      - intros Hoo. exists h, oh. split; [now apply -> in_rev|]. rewrite Hfind. auto. }
    unfold walRemoved. rewrite !Hone by reflexivity. tauto. }
  rewrite Hiff. rewrite (expireArchiveDir_spec c l current h a oh d f Ho Hnd Hd Hp Hf Hwf (Hpre d f Hd Hf Hwf) Eoh).
  split; [intros Hx; split; [apply Hact; auto|exact Hx]|tauto].
Qed.

(** * Other operations *)

Lemma historyMatch_spec ah : forall bh, historyMatch ah bh = Ok tt <-> sameHistory ah bh.
Proof.
  induction ah as [|a ah IH]; intros bh; cbn [historyMatch].
  - split; [intros _|reflexivity]. split; [cbn; lia|]. intros [|i] x y H; discriminate.
  - destruct bh as [|b bh]; [split; [discriminate|intros [H _]; cbn in H; lia]|].
    destruct ((phId (ahPg a) =? phId b) && (phSysId (ahPg a) =? phSysId b) && (phVersion (ahPg a) =? phVersion b)) eqn:E.
    + rewrite IH. apply andb_true_iff in E. destruct E as [E E3]. apply andb_true_iff in E. destruct E as [E1 E2].
      apply Z.eqb_eq in E1, E2, E3. unfold sameHistory. cbn [length]. split; intros [H1 H2]; (split; [lia|]).
      * intros [|i] x y Hx Hy; cbn in Hx, Hy; [injection Hx as <-; injection Hy as <-; auto|eauto].
      * intros i x y Hx Hy. exact (H2 (S i) x y Hx Hy).
    + split; [discriminate|]. intros [_ H]. destruct (H 0%nat a b eq_refl eq_refl) as (E1 & E2 & E3). rewrite E1, E2, E3, !Z.eqb_refl in E. discriminate.
Qed.

Lemma removeExpiredArchive_ok c l ah bh current dirs ops : removeExpiredArchive c l ah bh current dirs = Ok ops ->
  ops = [] \/ sameHistory ah bh.
Proof.
  unfold removeExpiredArchive. destruct (Nat.eqb _ 0); [intros H; injection H as <-; auto|]. cbn zeta. destruct (_ || _); [|intros H; injection H as <-; auto].
  destruct (historyMatch ah bh) as [[]| |] eqn:E; cbn [bind]; try discriminate. right. now apply historyMatch_spec.
Qed.

(** Operations per archive directory. *)
Lemma removeExpiredArchive_dir c l ah bh current dirs ops h a : goodArchive ah dirs ->
  removeExpiredArchive c l ah bh current dirs = Ok ops -> In h ah -> In a dirs -> adId a = ahId h ->
  let global := strLstSortDesc (labelList (retLabel (wcType c)) l) in
  exists oh, expireArchiveDir c l global (firstn (Nat.min (wcRetention c) (length global)) global) current h a = Ok oh /\ forall o, opAid o = adId a -> (In o ops <-> expiryActive c l /\ In o oh).
Proof.
  intros (Hn1 & Hn2 & Hga) H Hh Ha Eid. cbn zeta. unfold removeExpiredArchive in H.
  pose proof (active_code c l) as Hact. cbn zeta in H. set (global := strLstSortDesc (labelList (retLabel (wcType c)) l)) in *.
  assert (Hok : exists oh, expireArchiveDir c l global (firstn (Nat.min (wcRetention c) (length global)) global) current h a = Ok oh).
  { clear. unfold expireArchiveDir. destruct (rev (localRetention _ _ _)).
    - destruct (wcBefore c); destruct (current =? _); eexists; reflexivity.
    - destruct (find _ _) as [r|]; [|eexists; reflexivity]. destruct (bkArchStart r); eexists; reflexivity. }
  destruct Hok as (oh & Eoh). exists oh. split; [exact Eoh|]. intros o Eo.
  destruct (Nat.eqb (wcRetention c) 0) eqn:E0.
  { injection H as <-. split; [intros []|]. intros [Hx _]. apply Hact in Hx. destruct Hx; discriminate. }
  destruct (match wcBefore c with Some _ => true | None => false end || _) eqn:E1.
  2:{ injection H as <-. split; [intros []|]. intros [Hx _]. apply Hact in Hx. destruct Hx; discriminate. }
  destruct (historyMatch ah bh) as [[]| |]; cbn [bind] in H; try discriminate.
  rewrite (mapOps_in _ _ _ H). split.
  - intros (x & o' & Hx & Ex & Hoo). split; [apply Hact; auto|].
    destruct (find (fun y => strEqb (adId y) (ahId x)) dirs) as [b|] eqn:Eb.
    + pose proof (dir_aid _ _ _ _ _ _ _ _ Ex o Hoo) as Eb'. apply find_some in Eb. destruct Eb as [Hb Eb]. apply strEqb_eq in Eb.
      assert (x = h). { apply (NoDup_map_inj ahId ah); auto; [now apply in_rev|congruence]. } subst x.
      assert (b = a). { apply (NoDup_map_inj adId dirs); auto. congruence. } subst b. congruence.
    + injection Ex as <-. destruct Hoo.
  - intros [_ Hoo]. exists h, oh. split; [now apply -> in_rev|].
    replace (find (fun x => strEqb (adId x) (ahId h)) dirs) with (Some a); [auto|].
    destruct (find _ dirs) as [b|] eqn:Ef.
    + apply find_some in Ef. destruct Ef as [Hb Eb]. apply strEqb_eq in Eb. f_equal. apply (NoDup_map_inj adId dirs); auto. congruence.
    + pose proof (find_none _ _ Ef a Ha) as Hx. cbn in Hx. rewrite Eid, strEqb_refl in Hx. discriminate.
Qed.

Lemma archive_removed c l ah bh current dirs ops h a : ordered l -> goodArchive ah dirs ->
  removeExpiredArchive c l ah bh current dirs = Ok ops -> In h ah -> In a dirs -> adId a = ahId h ->
  (In (RmArchive (adId a)) ops <-> expiryActive c l /\ ~ counted (wcType c) l (phId (ahPg h)) /\ current <> phId (ahPg h)).
Proof.
  intros Ho Hga H Hh Ha Eid. destruct (removeExpiredArchive_dir _ _ _ _ _ _ _ _ _ Hga H Hh Ha Eid) as (oh & Eoh & Hin).
  rewrite Hin by reflexivity. clear Hin H. unfold expireArchiveDir in Eoh. set (pg := phId (ahPg h)) in *.
  rewrite (counted_local (wcType c) l pg Ho). set (global := strLstSortDesc (labelList (retLabel (wcType c)) l)) in *.
  assert (Hid : forall rs m, ~ In (RmArchive (adId a)) (expireArchiveId a rs m)).
  { intros rs m Hx. apply expireArchiveId_in in Hx. destruct Hx as (d & _ & Hx). apply expireWalDir_in in Hx. destruct Hx as [E|(f & E)]; discriminate. }
  destruct (rev (localRetention l global pg)) as [|x rest] eqn:Er.
  - assert (El : localRetention l global pg = []) by (rewrite <- (rev_involutive (localRetention l global pg)), Er; reflexivity).
    rewrite El. destruct (wcBefore c); destruct (Z.eqb_spec current pg) as [Ec|Ec]; injection Eoh as <-.
    + split; [intros [_ Hx]; exfalso; eapply Hid; eauto|tauto].
    + split; [intros [Hx _]|intros (Hx & _)]; (split; [exact Hx|]); [split; [intros Hy; now apply Hy|exact Ec]|now left].
    + split; [intros [_ []]|tauto].
    + split; [intros [Hx _]|intros (Hx & _)]; (split; [exact Hx|]); [split; [intros Hy; now apply Hy|exact Ec]|now left].
  - assert (El : localRetention l global pg <> []) by (intros El; rewrite El in Er; discriminate).
    split; [|tauto]. intros [_ Hx]. exfalso. destruct (find _ _) as [r|]; [|injection Eoh as <-; destruct Hx].
    destruct (bkArchStart r); injection Eoh as <-; [|destruct Hx]. apply in_app_or in Hx. destruct Hx as [Hx|Hx]; [eapply Hid; eauto|].
    apply in_map_iff in Hx. destruct Hx as (f & E & _). discriminate.
Qed.

Lemma history_removed c l ah bh current dirs ops h a f : ordered l -> goodArchive ah dirs ->
  removeExpiredArchive c l ah bh current dirs = Ok ops -> In h ah -> In a dirs -> adId a = ahId h ->
  (In (RmWalHistory (adId a) f) ops <-> expiryActive c l /\ In f (adHistory a) /\ isWalHistory f = true /\ exists r start, selected (wcType c) (wcRetention c) l (phId (ahPg h)) r /\ bkArchStart r = Some start /\ slt (firstn 8 f) (firstn 8 start)).
Proof.
  intros Ho Hga H Hh Ha Eid. destruct (removeExpiredArchive_dir _ _ _ _ _ _ _ _ _ Hga H Hh Ha Eid) as (oh & Eoh & Hin).
  rewrite Hin by reflexivity. clear Hin H. unfold expireArchiveDir in Eoh. set (pg := phId (ahPg h)) in *.
  pose proof (counted_local (wcType c) l pg Ho) as Hcnt. set (global := strLstSortDesc (labelList (retLabel (wcType c)) l)) in *.
  assert (Hid : forall rs m, ~ In (RmWalHistory (adId a) f) (expireArchiveId a rs m)).
  { intros rs m Hx. apply expireArchiveId_in in Hx. destruct Hx as (d & _ & Hx). apply expireWalDir_in in Hx. destruct Hx as [E|(g & E)]; discriminate. }
  destruct (rev (localRetention l global pg)) as [|x rest] eqn:Er.
  - assert (El : localRetention l global pg = []) by (rewrite <- (rev_involutive (localRetention l global pg)), Er; reflexivity).
    assert (Hnc : ~ counted (wcType c) l pg) by (rewrite Hcnt; intros Hx; now apply Hx).
    assert (Hno : ~ In (RmWalHistory (adId a) f) oh).
    { destruct (wcBefore c); destruct (current =? pg); injection Eoh as <-; [apply Hid|intros [E|[]]; discriminate|intros []|intros [E|[]]; discriminate]. }
    split; [tauto|]. intros (_ & _ & _ & r & _ & (Hr1 & Hr2 & Hr3 & _) & _). exfalso. apply Hnc. exists r. auto.
  - destruct (selected_code (wcType c) (wcRetention c) l pg Ho x rest Er) as (r & Ef & Hsel). fold global in Ef. cbn zeta in Ef.
    rewrite Ef in Eoh. destruct (bkArchStart r) as [start|] eqn:Es; injection Eoh as <-.
    + rewrite in_app_iff. split.
      * intros [Hact [Hx|Hx]]; [exfalso; eapply Hid; eauto|]. split; [exact Hact|]. apply in_map_iff in Hx. destruct Hx as (g & E & Hg).
        injection E as ->. apply filter_In in Hg. destruct Hg as [Hg Hlt]. rewrite strLstSortAsc_in in Hg. apply filter_In in Hg.
        apply strLtb_lt in Hlt. split; [tauto|]. split; [tauto|]. exists r, start. auto.
      * intros (Hact & Hf & Hh' & r' & start' & Hsel' & Es' & Hlt). split; [exact Hact|]. right. apply in_map, filter_In.
        assert (r' = r) by (eapply selected_unique; eauto). subst r'. assert (start' = start) by congruence. subst start'.
        split; [rewrite strLstSortAsc_in; apply filter_In; auto|]. now apply strLtb_lt.
    + split; [intros [_ []]|]. intros (_ & _ & _ & r' & start' & Hsel' & Es' & _).
      assert (r' = r) by (eapply selected_unique; eauto). subst r'. congruence.
Qed.

(** Only files and paths that are WAL and are on storage are removed. *)
Lemma removed_exists c l ah bh current dirs ops o : removeExpiredArchive c l ah bh current dirs = Ok ops -> In o ops ->
  exists a, In a dirs /\
    match o with
    | RmArchive aid => aid = adId a
    | RmWalPath aid p => aid = adId a /\ isWalPath p = true /\ exists d, In d (adWal a) /\ wdPath d = p
    | RmWal aid p f => aid = adId a /\ isWalPath p = true /\ isWalFile f = true /\ exists d, In d (adWal a) /\ wdPath d = p /\ In f (wdFiles d)
    | RmWalHistory aid f => aid = adId a /\ isWalHistory f = true /\ In f (adHistory a)
    end.
Proof.
  unfold removeExpiredArchive. intros H Ho. destruct (Nat.eqb _ 0); [injection H as <-; destruct Ho|]. cbn zeta in H.
  destruct (_ || _); [|injection H as <-; destruct Ho]. destruct (historyMatch ah bh) as [[]| |]; cbn [bind] in H; try discriminate.
  apply (mapOps_in _ _ _ H) in Ho. destruct Ho as (h & oh & _ & E & Ho). destruct (find _ dirs) as [a|] eqn:Ef; [|injection E as <-; destruct Ho].
  apply find_some in Ef. destruct Ef as [Ha _]. exists a. split; [exact Ha|]. clear H.
  assert (Hid : forall rs m, In o (expireArchiveId a rs m) ->
    match o with
    | RmArchive aid => aid = adId a
    | RmWalPath aid p => aid = adId a /\ isWalPath p = true /\ exists d, In d (adWal a) /\ wdPath d = p
    | RmWal aid p f => aid = adId a /\ isWalPath p = true /\ isWalFile f = true /\ exists d, In d (adWal a) /\ wdPath d = p /\ In f (wdFiles d)
    | RmWalHistory aid f => aid = adId a /\ isWalHistory f = true /\ In f (adHistory a)
    end).
  { intros rs m Hx. unfold expireArchiveId in Hx. apply in_flat_map in Hx. destruct Hx as (d & Hd & Hx). rewrite sortBy_in in Hd.
    apply filter_In in Hd. destruct Hd as [Hd Hp]. unfold expireWalDir in Hx. destruct (negb _); [destruct Hx as [<-|[]]; eauto|].
    destruct (match m with None => _ | Some m0 => _ end); [|destruct Hx]. apply in_map_iff in Hx. destruct Hx as (f & <- & Hf).
    apply filter_In in Hf. destruct Hf as [Hf _]. rewrite strLstSortAsc_in in Hf. apply filter_In in Hf. destruct Hf. eauto 8. }
  unfold expireArchiveDir in E. destruct (rev _) as [|x rest].
  - destruct (wcBefore c); destruct (current =? _); injection E as <-; first [eapply Hid; eassumption | destruct Ho as [<-|[]]; reflexivity | destruct Ho].
  - destruct (find _ _) as [r|]; [|injection E as <-; destruct Ho]. destruct (bkArchStart r); injection E as <-; [|destruct Ho].
    apply in_app_or in Ho. destruct Ho as [Ho|Ho]; [eapply Hid; eassumption|]. apply in_map_iff in Ho. destruct Ho as (f & <- & Hf).
    apply filter_In in Hf. destruct Hf as [Hf _]. rewrite strLstSortAsc_in in Hf. apply filter_In in Hf. tauto.
Qed.

(** * What is kept *)

Lemma retFull t x : labelFull x = true -> retLabel t x = true.
Proof. intros H. destruct t; cbn; [exact H| |]; unfold labelFullDiff, labelAny; rewrite ?H; auto. Qed.

Lemma chain_counted t l b : goodHistory l -> clusterChains l -> In b l -> counted t l (bkPgId b).
Proof.
  intros Hg Hc Hb. destruct (reaches_full l b Hg Hb) as [_ (f & Hf & Ef)]. exists f. split; [exact Hf|]. split; [now apply Hc|].
  apply filter_In. split; [now apply in_map|]. apply retFull. rewrite Ef. eapply wellLabelled_fullOf; [apply Hg|exact Hb].
Qed.

Lemma kept_backup c l current b x : goodHistory l -> clusterChains l -> startsOrdered l -> In b l -> inBackup b x ->
  ~ dirRemoves c l current (bkPgId b) x.
Proof.
  intros Hg Hcc Hso Hb Hin [H _]. pose proof Hg as (Ho & _).
  destruct (H (chain_counted _ _ _ Hg Hcc Hb)) as (r & start & (Hr & Hrp & _) & Es & Hlt & Hnk & _).
  destruct (slt_total (bkLabel b) (bkLabel r)) as [L|[L|L]].
  - apply Hnk. exists b. auto.
  - assert (b = r) by (eapply uniq; eauto). subst r. destruct Hin as (s & E & Hs & _). assert (s = start) by congruence. subst s.
    apply sle_not_lt in Hs. contradiction.
  - destruct Hin as (s & E & Hs & _). assert (Hle : sle start s) by (apply (Hso r b start s); auto).
    apply (slt_irrefl x). eapply slt_le_trans; [exact Hlt|]. eapply sle_trans; eauto.
Qed.

(** * Names *)

Lemma hexF_all s : forallb isHexF s = true <-> forall c, In c s -> 48 <= c <= 70.
Proof. rewrite forallb_forall. unfold isHexF. split; intros H c Hc; specialize (H c Hc); lia. Qed.
Lemma walNames_spec s :
  (isWalPath s = true <-> length s = 16%nat /\ forall c, In c s -> 48 <= c <= 70) /\
  (isWalFile s = true <-> exists w r, s = w ++ r /\ length w = 24%nat /\ forall c, In c w -> 48 <= c <= 70) /\
  (isWalHistory s = true <-> exists t x, s = t ++ x :: [104;105;115;116;111;114;121] /\ length t = 8%nat /\ forall c, In c t -> 48 <= c <= 70).
Proof.
  unfold isWalPath, isWalFile, isWalHistory. rewrite !andb_true_iff, !Nat.eqb_eq, Nat.leb_le, !hexF_all, strEqb_eq.
  split; [tauto|]. split; split.
  - intros [H1 H2]. exists (firstn 24 s), (skipn 24 s). split; [symmetry; apply firstn_skipn|]. split; [apply firstn_length_le; exact H1|exact H2].
  - intros (w & r & -> & H1 & H2). rewrite app_length. split; [lia|]. rewrite firstn_app, H1, Nat.sub_diag, firstn_O, app_nil_r.
    rewrite firstn_all2 by lia. exact H2.
  - intros ((H1 & H2) & H3). assert (L : length (skipn 8 s) = 8%nat) by (rewrite skipn_length; lia).
    destruct (skipn 8 s) as [|x r] eqn:E; [discriminate|]. exists (firstn 8 s), x. split; [|split; [apply firstn_length_le; lia|exact H2]].
    rewrite <- (firstn_skipn 8 s) at 1. f_equal. rewrite E. f_equal. rewrite <- H3. 
    assert (K : forall (A : Type) n (l : list A), skipn (S n) l = skipn 1 (skipn n l)).
    { intros A n; induction n as [|n IH]; intros l; [reflexivity|]. destruct l as [|y l]; [reflexivity|]. exact (IH l). }
    rewrite (K Z 8%nat s), E. reflexivity.
  - intros (t & x & -> & H1 & H2). rewrite app_length. cbn [length]. split; [split; [lia|]|].
    + rewrite firstn_app, H1, Nat.sub_diag, firstn_O, app_nil_r. rewrite firstn_all2 by lia. exact H2.
    + rewrite skipn_app, H1. rewrite skipn_all2 by lia. reflexivity.
Qed.
