(** What is known when the command is done. *)
From Coq Require Import String Sorting.Sorted Sorting.Permutation.
From Verif Require Import Base Str ConvertModel NumModel LsnModel LsnProof RegNameModel EncodeModel LinkCheckModel LinkCheckProof2 BuildProof4 ResumeModel VerifyModel VerifySpec VerifyProof VerifyProof2 VerifyProof3 VerifyProof4 VerifyProof5 VerifyProof6.
Open Scope Z_scope.
Open Scope list_scope.

Lemma errOf_counted b r : errOf b r = counted b r.
Proof. destruct b, r as [[] | |]; reflexivity. Qed.
Lemma counted_nonneg b r : 0 <= counted b r.
Proof. destruct b, r as [[] | |]; cbn; lia. Qed.
Lemma sum_nonneg {A} (g : A -> Z) l : (forall x, In x l -> 0 <= g x) -> 0 <= sumZ (map g l).
Proof. unfold sumZ. induction l as [| x l IH]; intros H; cbn [map fold_right]; [lia|]. pose proof (H x (or_introl eq_refl)). specialize (IH ltac:(intros y Hy; apply H; now right)). lia. Qed.
Lemma sum_zero {A} (g : A -> Z) l : (forall x, In x l -> 0 <= g x) -> sumZ (map g l) = 0 -> forall x, In x l -> g x = 0.
Proof.
  unfold sumZ. induction l as [| y l IH]; intros H E x Hx; [destruct Hx|]. cbn [map fold_right] in E. pose proof (H y (or_introl eq_refl)). pose proof (sum_nonneg g l ltac:(intros z Hz; apply H; now right)) as N. unfold sumZ in N.
  destruct Hx as [<- | Hx]; [lia|]. apply IH; auto; [intros z Hz; apply H; now right | lia].
Qed.
Lemma sum_pos {A} (g : A -> Z) l : 0 < sumZ (map g l) -> exists x, In x l /\ 0 < g x.
Proof. unfold sumZ. induction l as [| y l IH]; cbn [map fold_right]; [lia|]. intros H. destruct (Z_lt_dec 0 (g y)) as [L | L]; [exists y; split; [now left | exact L]|]. destruct IH as (x & Hx & G); [lia|]. exists x. split; [now right | exact G]. Qed.

Section Done.
Variables (w : vworld) (check : vjob -> res vres) (d0 d : vdata).
Notation o := (vdFilter d0).
Notation ids0 := (vdIds d0).
Notation backs0 := (vdBackups d0).
Notation cur0 := (vdCurrent d0).
Hypothesis Gids : goodIds w ids0.
Hypothesis Gsize : forall f n, vwWalSize w f = Ok n -> n <> 0.
Hypothesis Gback : goodLabels backs0.
Hypothesis Hfresh : fresh d0.
Notation usable := (usable w cur0).

Lemma final2 : completed w check d0 d ->
  (map vaId (vdArch d) = ids0 /\ forall a, In a (vdArch d) -> archIs w o (walResults w o check ids0) (strLstSortAsc (vwPaths w (vaId a))) a) /\
  exists RB es, map vkLabel (vdBack d) = backs0 /\ (forall x, In x RB -> backResult w check cur0 x /\ In (fst (fst x)) backs0) /\ (exists DB, Permutation DB (map fst RB) /\ forall b, In b (vdBack d) -> backOk w cur0 (vdBack d) DB RB b []) /\
    Forall2 (fun x e => dupsAre w o (fst x) (snd x) e) (walPaths w ids0) es /\
    vdErrors d = vdErrors d0 + sumZ es + sumZ (map (manifestErr w cur0) backs0) + sumZ (map (fun x => counted true (snd x)) (walResults w o check ids0)) + sumZ (map (fun x => counted false (snd x)) RB).
Proof.
  intros H. destruct (final w check o ids0 backs0 cur0 (vdErrors d0) Gids Gsize Gback d0 Hfresh ltac:(auto) d H) as (A & RB & es & B1 & B2 & B3 & B4 & B5). split; [exact A|]. exists RB, es. split; [exact B1|]. split; [exact B2|]. split; [exact B3|]. split; [exact B4|].
  rewrite B5. unfold manErrs. rewrite B1. change total with sumZ. change (manErr w cur0) with (manifestErr w cur0).
  rewrite (map_ext (fun x : str * str * str * res vres => errOf true (snd x)) (fun x => counted true (snd x))) by (intros x; apply errOf_counted).
  rewrite (map_ext (fun x : str * vfile * res vres => errOf false (snd x)) (fun x => counted false (snd x))) by (intros x; apply errOf_counted). reflexivity.
Qed.
(** A file of a backup that is checked has a job of its own, or its backup of reference was checked completely *)
Lemma file_fate RB DB l m f : (forall b, In b (vdBack d) -> backOk w cur0 (vdBack d) DB RB b []) -> Permutation DB (map fst RB) -> map vkLabel (vdBack d) = backs0 -> In l backs0 -> usable l m -> In f (vmFiles m) -> needed m f = true ->
  (exists r, In (l, f, r) RB) \/ (exists r p, vfRef f = Some r /\ In p (vdBack d) /\ vkLabel p = r /\ vkDone p = true).
Proof.
  intros HB HP HL Hl HU Hf HN. rewrite <- HL in Hl. apply in_map_iff in Hl. destruct Hl as (b & <- & Hb). pose proof (HB b Hb) as K. unfold backOk in K. unfold VerifySpec.usable in HU. change (manifestOf w cur0) with (manOf w cur0) in HU.
  destruct (manOf w cur0 (vkLabel b)) as ((om, s), e). cbn [fst] in HU. subst om. destruct (vmFiles m) as [| f0 fs] eqn:EV; [destruct Hf|]. rewrite <- EV in *. destruct K as (hc & H1 & H2 & H3). rewrite app_nil_r in H1.
  rewrite <- H1 in Hf. apply in_map_iff in Hf. destruct Hf as ((g, c) & E & Hg). cbn [fst] in E. subst g. destruct H2 as [m1 m2 m3 m4 m5 m6 m7]. rewrite Forall_forall in m3. pose proof (m3 _ Hg) as C. destruct c as [| | y]; cbn [clsOk] in C.
  - congruence.
  - left. assert (X : In f (map snd (filter (ofLabel (vkLabel b)) DB))) by (rewrite H3; apply in_flat_map; exists (f, CJob); split; [exact Hg | now left]).
    apply in_map_iff in X. destruct X as ((l, g) & E & X). cbn [snd] in E. subst g. apply filter_In in X. destruct X as [X1 X2]. apply strEqb_eq in X2. cbn [fst] in X2. subst l. apply (Permutation_in _ HP) in X1. apply in_map_iff in X1. destruct X1 as ((x, r) & E & X1). cbn [fst] in E. subst x. eauto.
  - right. destruct C as (_ & r & p & C1 & C2 & C3 & C4 & _). eauto 10.
Qed.
Lemma done_usable RB DB p : (forall b, In b (vdBack d) -> backOk w cur0 (vdBack d) DB RB b []) -> In p (vdBack d) -> vkDone p = true -> exists m, usable (vkLabel p) m.
Proof.
  intros HB Hp D. pose proof (HB p Hp) as K. unfold backOk in K. unfold VerifySpec.usable. change (manifestOf w cur0) with (manOf w cur0). destruct (manOf w cur0 (vkLabel p)) as ((om, s), e) eqn:EM. destruct om as [m |]; [exists m; reflexivity|]. destruct K as [K _]. rewrite K in D. discriminate.
Qed.
Lemma done_label RB DB p : (forall b, In b (vdBack d) -> backOk w cur0 (vdBack d) DB RB b []) -> map vkLabel (vdBack d) = backs0 -> In p (vdBack d) -> In (vkLabel p) backs0.
Proof. intros _ <- H. now apply in_map. Qed.

(** Counts *)
Lemma cls_count hc : length hc = (length (filter clsValid hc) + length (flat_map clsBad hc) + length (flat_map clsJob hc))%nat.
Proof. induction hc as [| (f, c) hc IH]; [reflexivity|]. destruct c as [| | [y |]]; cbn; lia. Qed.
Lemma rb_count (RB : list (str * vfile * res vres)) l m : length (filter (ofLabel l) (map fst RB)) = (length (filter (okOf l) RB) + length (flat_map (badOf l m) RB))%nat.
Proof.
  induction RB as [| ((k, f), r) RB IH]; [reflexivity|]. cbn [map filter flat_map okOf badOf fst]. unfold ofLabel at 1. cbn [fst]. destruct (strEqb k l); cbn [andb]; [| exact IH]. destruct (failed r); cbn [negb length app]; lia.
Qed.
Lemma counts RB DB b m : backOk w cur0 (vdBack d) DB RB b [] -> Permutation DB (map fst RB) -> usable (vkLabel b) m -> vmFiles m <> [] ->
  vkManifest b = Z.of_nat (length (vmFiles m)) /\ vkVerify b = vkManifest b /\ vkValid b + Z.of_nat (length (vkBad b)) = vkVerify b /\ vkStatus b = match vkBad b with [] => SValid | _ => SInvalid end.
Proof.
  intros K HP HU NE. unfold backOk in K. unfold VerifySpec.usable in HU. change (manifestOf w cur0) with (manOf w cur0) in HU. destruct (manOf w cur0 (vkLabel b)) as ((om, s), e). cbn [fst] in HU. subst om.
  destruct (vmFiles m) as [| f0 fs] eqn:EV; [now elim NE|]. rewrite <- EV in *. destruct K as (hc & H1 & [m1 m2 m3 m4 m5 m6 m7] & H3). rewrite app_nil_r in H1.
  assert (LH : length hc = length (vmFiles m)) by (rewrite <- H1, map_length; reflexivity). split; [exact m1|]. split; [lia|]. split; [| exact m6].
  apply Permutation_length in m5. rewrite app_length in m5. pose proof (cls_count hc) as C. pose proof (rb_count RB (vkLabel b) m) as R. apply (f_equal (@length vfile)) in H3. rewrite map_length in H3. rewrite (filter_perm _ _ _ HP) in H3. lia.
Qed.
(** A failed check of a file that was given out makes the backup invalid *)
Lemma failed_invalid RB DB b l m f r : backOk w cur0 (vdBack d) DB RB b [] -> vkLabel b = l -> usable l m -> In (l, f, r) RB -> failed r = true -> Permutation DB (map fst RB) ->
  vkStatus b = SInvalid /\ In (mkVbad (repoName l m f) (reason r)) (vkBad b).
Proof.
  intros K EL HU HR HF HP. unfold backOk in K. rewrite EL in K. unfold VerifySpec.usable in HU. change (manifestOf w cur0) with (manOf w cur0) in HU. destruct (manOf w cur0 l) as ((om, s), e). cbn [fst] in HU. subst om.
  assert (ND : filter (ofLabel l) DB <> []). { intros F. assert (X : In (l, f) []) by (rewrite <- F; apply filter_In; split; [apply (Permutation_in _ (Permutation_sym HP)); apply in_map_iff; exists (l, f, r); auto | apply strEqb_refl]). exact X. }
  destruct (vmFiles m) as [| f0 fs] eqn:EV; [destruct K as [_ K]; contradiction|]. destruct K as (hc & H1 & [m1 m2 m3 m4 m5 m6 m7] & H3).
  assert (X : In (mkVbad (repoName l m f) (reason r)) (vkBad b)).
  { apply (Permutation_in _ (Permutation_sym m5)). apply in_or_app. right. apply in_flat_map. exists (l, f, r). split; [exact HR|]. cbn [badOf]. rewrite EL, strEqb_refl, HF. now left. }
  split; [| exact X]. rewrite m6. destruct (vkBad b); [destruct X | reflexivity].
Qed.
End Done.

(** * Everything that is reported as bad is bad *)
Section Real.
Variables (w : vworld) (check : vjob -> res vres) (d0 : vdata).
Hypothesis Gids : goodIds w (vdIds d0).
Hypothesis Gsize : forall f n, vwWalSize w f = Ok n -> n <> 0.
Hypothesis Gback : goodLabels (vdBackups d0).
Hypothesis Hfresh : fresh d0.
Definition allBad (P : vbad -> Prop) (l : list vback) : Prop := forall b x, In b l -> In x (vkBad b) -> P x.
Lemma allBad_last (P : vbad -> Prop) q b b' : allBad P (q ++ [b]) -> (forall x, In x (vkBad b') -> P x) -> allBad P (q ++ [b']).
Proof. intros H K c x Hc Hx. apply in_app_or in Hc. destruct Hc as [Hc | [<- | []]]; [apply (H c x); [apply in_or_app; now left | exact Hx] | exact (K x Hx)]. Qed.
Lemma check_bad P m all b f j b' : allBad P (all ++ [b]) -> checkFile m all b f = (j, b') -> forall x, In x (vkBad b') -> P x.
Proof.
  intros H. assert (HB : forall x, In x (vkBad b) -> P x) by (intros x Hx; apply (H b x); [apply in_or_app; right; now left | exact Hx]).
  unfold checkFile. destruct (_ || _); [| intros E; injection E as <- <-; exact HB]. destruct (vfRef f) as [r |]; [| intros E; injection E as <- <-; exact HB].
  destruct (findBack _ r) as [p |] eqn:EF; [| intros E; injection E as <- <-; exact HB]. destruct (vkDone p); [| intros E; injection E as <- <-; exact HB].
  destruct (find _ (vkBad p)) as [y |] eqn:EY; intros E; injection E as <- <-; [| exact HB]. intros x Hx. cbn [addBad addVerify vkBad] in Hx. apply in_app_or in Hx. destruct Hx as [Hx | [<- | []]]; [exact (HB x Hx)|].
  apply find_some in EY. destruct EY as [EY _]. apply find_in in EF. destruct EF as [EF _]. apply in_app_or in EF. destruct EF as [EF | [<- | []]]; [apply (H p y); [apply in_or_app; now left | exact EY] | exact (HB y EY)].
Qed.
Lemma fileLoop_bad P m all : forall todo b j todo' b', allBad P (all ++ [b]) -> fileLoop m all todo b = (j, todo', b') -> forall x, In x (vkBad b') -> P x.
Proof.
  induction todo as [| f r IH]; intros b j todo' b' H; cbn [fileLoop].
  - intros E. injection E as <- <- <-. intros x Hx. apply (H b x); [apply in_or_app; right; now left | exact Hx].
  - destruct (checkFile m all b f) as (j0, b0) eqn:EC. pose proof (check_bad P m all b f j0 b0 H EC) as K. destruct j0; [intros E; injection E as <- <- <-; exact K|]. apply IH. exact (allBad_last P all b b0 H K).
Qed.
Lemma allBad_setLast P f l : allBad P l -> (forall b, lastOf l = Some b -> forall x, In x (vkBad (f b)) -> P x) -> allBad P (setLast f l).
Proof.
  intros H K. destruct (lastOf l) as [b |] eqn:EL; [| apply lastOf_none in EL; subst l; intros c x []]. destruct (lastOf_some _ _ EL) as (q & ->). rewrite setLast_app. exact (allBad_last P q b (f b) H (K b eq_refl)).
Qed.
Lemma allBad_new P l b : allBad P l -> vkBad b = [] -> allBad P (l ++ [b]).
Proof. intros H E c x Hc Hx. apply in_app_or in Hc. destruct Hc as [Hc | [<- | []]]; [exact (H c x Hc Hx) | rewrite E in Hx; destruct Hx]. Qed.
Lemma backupLoop_bad P : forall l d j d', allBad P (vdBack d) -> backupLoop w l d = Ok (j, d') -> allBad P (vdBack d').
Proof.
  induction l as [| label r IH]; intros d j d' H; cbn [backupLoop]; [intros E; injection E as <- <-; exact H|].
  set (known := match lastOf (vdBack d) with Some b => strEqb (vkLabel b) label | None => false end). generalize known. clear known. intros known. set (man0 := verifyManifestFile w label _).
  destruct (if known then _ else _) as ((man, back), errors) eqn:EM.
  assert (HB : allBad P back).
  { destruct known; [injection EM as <- <- <-; exact H|]. destruct man0 as (([m |], s), e); injection EM as <- <- <-; apply allBad_new; auto. }
  destruct man as [(m, files) |].
  - destruct files as [| f fs].
    + apply IH. cbn [vdBack]. apply allBad_setLast; [exact HB|]. intros b Hb x Hx. destruct (lastOf_some _ _ Hb) as (q & E). apply (HB b x); [rewrite E; apply in_or_app; right; now left | exact Hx].
    + destruct (lastOf back) as [b |] eqn:EL; [| discriminate]. destruct (lastOf_some _ _ EL) as (q & EQ). destruct (fileLoop m (removelast back) (f :: fs) b) as ((j0, todo), b') eqn:EF.
      assert (K : allBad P (setLast (fun _ => b') back)). { apply allBad_setLast; [exact HB|]. intros _ _. rewrite EQ, removelast_last in EF. rewrite EQ in HB. exact (fileLoop_bad P m q (f :: fs) b j0 todo b' HB EF). }
      destruct j0; [intros E; injection E as <- <-; exact K | apply IH; exact K].
  - destruct known; [discriminate|]. apply IH. exact HB.
Qed.
Definition real (x : vbad) : Prop := exists l m f, usable w (vdCurrent d0) l m /\ In f (vmFiles m) /\ needed m f = true /\ failed (check (jobOf l m f)) = true /\ x = mkVbad (repoName l m f) (reason (check (jobOf l m f))).
Lemma callback_bad P d j d' : allBad P (vdBack d) -> verifyCallback w d = Ok (j, d') -> (forall d1 j1, verifyArchive w d = Ok (j1, d1) -> vdBack d1 = vdBack d) -> allBad P (vdBack d').
Proof.
  intros H. unfold verifyCallback. destruct (if vdBackupNow d then _ else _) as [(j0, d1) | |] eqn:E1; cbn [bind]; try discriminate. intros HC HA.
  assert (E : vdBack d1 = vdBack d) by (destruct (vdBackupNow d); [injection E1 as <- <-; reflexivity | exact (HA _ _ E1)]). destruct j0 as [j0 |]; [injection HC as <- <-; cbn [vdBack]; now rewrite E|].
  destruct (vdBackupNow d1 || _); [| injection HC as <- <-; cbn [vdBack]; now rewrite E]. apply (backupLoop_bad P _ _ _ _) in HC; [exact HC|]. cbn [vdBack]. now rewrite E.
Qed.
Lemma idLoop_back : forall l d j d', idLoop w l d = Ok (j, d') -> vdBack d' = vdBack d.
Proof.
  induction l as [| id r IH]; intros d j d'; cbn [idLoop]; [intros E; injection E as <- <-; reflexivity|].
  set (known := match lastOf (vdArch d) with Some a => strEqb (vaId a) id | None => false end). generalize known. clear known. intros known.
  destruct (if known then vdPaths d else _) as [| p ps]; [intros E; now rewrite (IH _ _ _ E)|].
  destruct (lastOf _); [| intros E; now rewrite (IH _ _ _ E)]. destruct (pathLoop _ _ _ _ _ _) as [((((j0, paths), files), a), e) | |]; cbn [bind]; try discriminate.
  destruct j0; intros E; [injection E as <- <-; reflexivity | now rewrite (IH _ _ _ E)].
Qed.
Lemma real_run s : vrun w check (d0, []) s -> allBad real (vdBack (fst s)).
Proof.
  intros H. remember (d0, @nil vjob) as s0 eqn:ES. induction H as [s | s t u H IH ST].
  - subst s. cbn [fst]. destruct Hfresh as (_ & _ & _ & _ & F & _). rewrite F. intros b x [].
  - specialize (IH ES). subst s. destruct (inv_run w check (vdFilter d0) (vdIds d0) (vdBackups d0) (vdCurrent d0) (vdErrors d0) Gids Gsize Gback d0 Hfresh ltac:(auto) _ H) as (T & DA & RA & DB & RB & loaded & es & HI).
    inversion ST as [d l j d' HC | d l d' HC | d a j b d' HC]; subst; cbn [fst snd] in *.
    + apply (callback_bad real d _ d' IH HC). intros d1 j1 E. exact (idLoop_back _ _ _ _ E).
    + apply (callback_bad real d _ d' IH HC). intros d1 j1 E. exact (idLoop_back _ _ _ _ E).
    + destruct HI as [n1 n2 n3 n4 n5 n6 n7 n8 n9]. apply Forall2_app_inv_l in n1. destruct n1 as (T1 & T2 & F1 & F2 & ->). inversion F2 as [| ? t ? T3 Ht F3]; subst. clear F2. rewrite !flat_map_app in *. cbn [flat_map] in *. destruct t as [((id, p), f) | (l, f)].
      * cbn [tagOk aTag bTag app] in *. rewrite (walJob_key _ _ _ _ _ Ht) in HC. assert (HD : In (id, p, f) DA) by (apply (Permutation_in _ (Permutation_sym n2)); apply in_or_app; left; apply in_or_app; right; now left).
        destruct (arch_result w _ _ (G1 w _ Gids) (G2 w _ Gids) (G3 w _ Gids) (G4 w _ Gids) d DA RA loaded es id p f (check j) d' n4 HD HC) as (_ & (_ & _ & _ & E & _) & _). rewrite E. exact IH.
      * cbn [tagOk aTag bTag app] in *. destruct Ht as (m & M1 & M2 & M3 & ->). rewrite job_key in HC. assert (HD : In (l, f) DB) by (apply (Permutation_in _ (Permutation_sym n3)); apply in_or_app; left; apply in_or_app; right; now left).
        assert (HL : In l (vdBackups d0)).
        { destruct n5 as [i1 i2 i3 i4]. pose proof (i2 _ HD) as X. cbn [fst] in X. destruct i4 as [(i4 & _) | (q & b0 & m0 & todo & r0 & K1 & K2 & K3 & _)]; [rewrite <- i4; apply in_or_app; now left|].
          rewrite <- K3, K2. rewrite K1, map_app in X. apply in_app_or in X. apply in_or_app. destruct X as [X | [<- | []]]; [now left | right; now left]. }
        destruct (key_split l m f (proj2 Gback l HL)) as (rs & E1 & E2). unfold verifyResult in HC. rewrite E1, E2 in HC. replace (strEqb repoBackup repoArchive) with false in HC by (vm_compute; reflexivity). rewrite strEqb_refl in HC.
        destruct (existsb _ (vdBack d)); cbn [negb] in HC; [| discriminate]. injection HC as <-. cbn [vdBack]. fold (reason (check (jobOf l m f))).
        assert (UF : forall g, (forall c x, In x (vkBad (g c)) -> In x (vkBad c) \/ real x) -> allBad real (updFirst (fun b => strEqb (vkLabel b) l) g (vdBack d))).
        { intros g HG. revert IH. generalize (vdBack d) as k. induction k as [| c k IHk]; intros HK; [intros c x []|]. cbn [updFirst]. destruct (strEqb (vkLabel c) l).
          - intros y x [<- | Hy] Hx; [destruct (HG _ _ Hx) as [Q | Q]; [apply (HK c x); [now left | exact Q] | exact Q] | apply (HK y x); [now right | exact Hx]].
          - intros y x [<- | Hy] Hx; [apply (HK c x); [now left | exact Hx]|]. revert y x Hy Hx. apply IHk. intros y x Hy Hx. apply (HK y x); [now right | exact Hx]. }
        apply UF. intros c x. destruct (vresEqb (reason (check (jobOf l m f))) VOk) eqn:EV; cbn [setDone addValid addBad vkBad]; [now left|]. intros Hx. apply in_app_or in Hx. destruct Hx as [Hx | [<- | []]]; [now left | right].
        exists l, m, f. split; [exact M1|]. split; [exact M2|]. split; [exact M3|]. split; [rewrite failed_reason, EV; reflexivity | reflexivity].
Qed.
Lemma real_done d : completed w check d0 d -> allBad real (vdBack d).
Proof. intros (d1 & HR & HC). apply (callback_bad real d1 _ d (real_run _ HR) HC). intros d2 j2 E. exact (idLoop_back _ _ _ _ E). Qed.
End Real.
