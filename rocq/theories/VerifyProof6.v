(** Whole runs, for all schedules. *)
From Coq Require Import String Sorting.Sorted Sorting.Permutation.
From Verif Require Import Base Str ConvertModel NumModel LsnModel LsnProof RegNameModel EncodeModel LinkCheckModel LinkCheckProof2 BuildProof4 ResumeModel VerifyModel VerifySpec VerifyProof VerifyProof2 VerifyProof3 VerifyProof4 VerifyProof5.
Open Scope Z_scope.
Open Scope list_scope.

Lemma totalApp a b : total (a ++ b) = total a + total b.
Proof. unfold total. rewrite fold_right_app. induction a as [| x a IH]; cbn [fold_right]; lia. Qed.
Section Whole.
Variables (w : vworld) (check : vjob -> res vres) (o : option (option (str * str))) (ids0 backs0 : list str) (cur0 : option str) (e0 : Z).
Hypothesis Gids : goodIds w ids0.
Hypothesis Gsize : forall f n, vwWalSize w f = Ok n -> n <> 0.
Hypothesis Gback : goodLabels backs0.
Notation manOf := (manOf w cur0).
Notation IA := (IA w o ids0).
Notation IB := (IB w cur0 backs0).

Lemma G1 : NoDup ids0. Proof. apply Gids. Qed.
Lemma G2 id : In id ids0 -> NoDup (vwPaths w id) /\ forall p, In p (vwPaths w id) -> walPathOk p (vwFiles w id p).
Proof. intros H. destruct Gids as (_ & _ & G). destruct (G id H) as (_ & N & K). split; [exact N|]. intros p Hp. apply (K p Hp). Qed.
Lemma G3 a b : In a ids0 -> In b ids0 -> sameId a b = true <-> a = b. Proof. apply Gids. Qed.
Lemma G4 id p f : In id ids0 -> In p (vwPaths w id) -> In f (vwFiles w id p) -> noSlash id /\ noSlash p /\ noSlash f.
Proof. intros H Hp Hf. destruct Gids as (_ & _ & G). destruct (G id H) as (A & _ & K). destruct (K p Hp) as (B & _ & C). split; [exact A|]. split; [exact B | exact (C f Hf)]. Qed.

Lemma ia_frame d d' DA RA loaded es : sameArch d d' -> IA d DA RA loaded es -> IA d' DA RA loaded es.
Proof.
  intros (E1 & E2 & E3 & E4 & _ & E6) [i1 i2 i3 i4 i5 i6 i7 i8]. assert (K : known d' = known d) by (unfold known; now rewrite E1, E4).
  constructor; unfold remP, curT, future in *; rewrite ?K, ?E1, ?E2, ?E3, ?E4, ?E6; assumption.
Qed.
Lemma ib_frame d d' DB RB : vdBackups d' = vdBackups d -> vdMan d' = vdMan d -> vdCurrent d' = vdCurrent d -> vdBack d' = vdBack d -> IB d DB RB -> IB d' DB RB.
Proof. intros E1 E2 E3 E4 [i1 i2 i3 i4]. constructor; rewrite ?E1, ?E2, ?E3, ?E4; assumption. Qed.

Inductive tag := TA (x : str * str * str) | TB (x : str * vfile).
Definition tagOk (j : vjob) (t : tag) : Prop :=
  match t with
  | TA (id, p, f) => walJob id p f (walSize w o id) = Ok j
  | TB (l, f) => exists m, fst (fst (manOf l)) = Some m /\ In f (vmFiles m) /\ needed m f = true /\ j = jobOf l m f
  end.
Definition aTag (t : tag) : list (str * str * str) := match t with TA x => [x] | TB _ => [] end.
Definition bTag (t : tag) : list (str * vfile) := match t with TB x => [x] | TA _ => [] end.
Definition backResult (x : str * vfile * res vres) : Prop := let '(l, f, r) := x in exists m, fst (fst (manOf l)) = Some m /\ In f (vmFiles m) /\ needed m f = true /\ r = check (jobOf l m f).
Record Inv (d : vdata) (l : list vjob) (T : list tag) (DA : list (str * str * str)) (RA : list (str * str * str * res vres)) (DB : list (str * vfile)) (RB : list (str * vfile * res vres))
  (loaded : list (str * str)) (es : list Z) : Prop := mkInv {
  in1 : Forall2 tagOk l T;
  in2 : Permutation DA (flat_map aTag T ++ map fst RA);
  in3 : Permutation DB (flat_map bTag T ++ map fst RB);
  in4 : IA d DA RA loaded es;
  in5 : IB d DB RB;
  in6 : forall x, In x RA -> snd x = walResult w o check (fst x);
  in7 : forall x, In x RB -> backResult x;
  in8 : vdErrors d = e0 + total es + manErrs w cur0 d + total (map (fun x => errOf true (snd x)) RA) + total (map (fun x => errOf false (snd x)) RB);
  in9 : vdBackupNow d = true -> vdIds d = [] }.

Lemma size_full d DA RA loaded es id p f n : IA d DA RA loaded es -> sizeIs w o id (pathsOf id loaded) n -> In (id, p) loaded -> In f (walFiles w o id p) -> n = walSize w o id.
Proof.
  intros HI HS HP Hf. assert (Hid : In id ids0). { pose proof (ia_loaded _ _ _ _ _ _ _ _ _ HI HP) as X. apply in_flat_map in X. destruct X as (i & Hi & X). apply in_map_iff in X. destruct X as (q & E & _). now injection E as -> _. }
  assert (PRE : strLstSortAsc (vwPaths w id) = pathsOf id loaded ++ pathsOf id (remP w d)). { rewrite <- (pathsOf_all w id ids0 G1 Hid), <- (ia1 _ _ _ _ _ _ _ _ HI). apply pathsOf_app. }
  unfold walSize, sizeIs in *. rewrite PRE, flat_map_app. destruct (flat_map (fun p => map (pair p) (listed w o id p)) (pathsOf id loaded)) as [| (q, g) l] eqn:EF.
  - exfalso. assert (X : In (p, f) []) by (rewrite <- EF; apply in_flat_map; exists p; split; [apply pathsOf_in; exact HP | apply in_map; apply filter_In in Hf; apply Hf]). exact X.
  - cbn [app]. now rewrite HS.
Qed.
Lemma inv_callback d l T DA RA DB RB loaded es j d' : Inv d l T DA RA DB RB loaded es -> verifyCallback w d = Ok (j, d') ->
  match j with
  | Some j => exists t DA' DB' loaded' es', Inv d' (l ++ [j]) (T ++ [t]) DA' RA DB' RB loaded' es'
  | None => exists loaded' es', Inv d' l T DA RA DB RB loaded' es' /\ vdIds d' = [] /\ vdBackups d' = []
  end.
Proof.
  intros [n1 n2 n3 n4 n5 n6 n7 n8 n9]. unfold verifyCallback.
  assert (STEP : exists j0 d1, (if vdBackupNow d then Ok (None, d) else verifyArchive w d) = Ok (j0, d1) -> True) by (exists None, d; auto). clear STEP.
  destruct (if vdBackupNow d then Ok (None, d) else verifyArchive w d) as [(j0, d1) | |] eqn:E1; cbn [bind]; try discriminate.
  assert (S1 : sameBackup d d1 /\ exists loaded' es', vdErrors d1 = vdErrors d + total es' - total es /\ Forall2 (fun x e => dupsAre w o (fst x) (snd x) e) loaded' es' /\
    match j0 with
    | None => IA d1 DA RA loaded' es' /\ vdIds d1 = []
    | Some j => exists id p f, walJob id p f (walSize w o id) = Ok j /\ IA d1 (DA ++ [(id, p, f)]) RA loaded' es' /\ vdBackupNow d1 = false
    end).
  { destruct (vdBackupNow d) eqn:EN.
    - injection E1 as <- <-. split; [repeat split|]. exists loaded, es. split; [lia|]. split; [apply n4|]. split; [exact n4 | now apply n9].
    - destruct (idLoop_spec w o ids0 G1 G2 Gsize (vdIds d) d DA RA loaded es j0 d1 n4 eq_refl E1) as (new & es' & A1 & A2 & A3). split; [exact A2|]. exists (loaded ++ new), (es ++ es').
      split; [rewrite A1, totalApp; lia|]. destruct j0 as [j0 |].
      + destruct A3 as (id & p & f & n & B1 & B2 & B3 & B4 & B5). split; [apply B2|]. exists id, p, f. rewrite <- (size_full _ _ _ _ _ _ _ _ _ B2 B3 B4 B5). split; [exact B1|]. split; [exact B2|]. destruct A2 as (_ & _ & _ & _ & A2). congruence.
      + split; [apply A3 | exact A3]. }
  destruct S1 as (SB & loaded' & es' & EE & DD & S1). destruct SB as (SB1 & SB2 & SB3 & SB4 & SB5).
  set (d2 := mkVdata (vdIds d1) (vdPaths d1) (vdFiles d1) (vdBackups d1) (vdMan d1) (vdCurrent d1) (vdBackupNow d1 || match vdIds d1 with [] => true | _ => false end) (vdErrors d1) (vdArch d1) (vdBack d1) (vdFilter d1)).
  assert (IB2 : IB d2 DB RB) by (apply (ib_frame d); assumption).
  assert (ME : manErrs w cur0 d2 = manErrs w cur0 d) by (unfold manErrs, d2; cbn [vdBack]; now rewrite SB4).
  assert (F2 : forall DA, IA d1 DA RA loaded' es' -> IA d2 DA RA loaded' es') by (intros DA0 H; destruct H; constructor; assumption).
  destruct j0 as [j0 |].
  - destruct S1 as (id & p & f & B1 & B2 & B3). intros H. injection H as <- <-. fold d2. exists (TA (id, p, f)), (DA ++ [(id, p, f)]), DB, loaded', es'. constructor.
    + apply Forall2_app; [exact n1|]. constructor; [exact B1 | constructor].
    + rewrite flat_map_app. cbn [flat_map aTag app]. rewrite <- app_assoc. cbn [app]. apply Permutation_trans with ((id, p, f) :: DA); [apply Permutation_sym, Permutation_cons_append|]. apply Permutation_cons_app. exact n2.
    + rewrite flat_map_app. cbn [flat_map bTag app]. rewrite app_nil_r. exact n3.
    + exact (F2 _ B2).
    + exact IB2.
    + exact n6.
    + exact n7.
    + rewrite ME. unfold d2. cbn [vdErrors]. rewrite EE. lia.
    + unfold d2. cbn [vdBackupNow vdIds]. rewrite B3. cbn [orb]. destruct (vdIds d1); [reflexivity | discriminate].
  - destruct S1 as (S1 & S2). replace (vdBackupNow d1 || _) with true in * by (rewrite S2; now rewrite orb_true_r). fold d2. intros H.
    destruct (backupLoop_spec w cur0 backs0 (proj1 Gback) (proj2 Gback) (vdBackups d2) d2 DB RB IB2 eq_refl j d' H) as (C1 & C2 & C3).
    assert (EC : vdErrors d' = e0 + total es' + manErrs w cur0 d' + total (map (fun x => errOf true (snd x)) RA) + total (map (fun x => errOf false (snd x)) RB)).
    { rewrite ME in C1. unfold d2 in C1 at 1. cbn [vdErrors] in C1. lia. }
    destruct C2 as (D1 & D2 & D3 & D4 & D5 & D6). assert (IA' : IA d' DA RA loaded' es') by (apply (ia_frame d2); [repeat split; assumption | exact (F2 _ S1)]).
    assert (ID' : vdIds d' = []) by (rewrite D1; exact S2).
    destruct j as [j |].
    + destruct C3 as (label & m & f & K1 & K2 & K3 & K4 & K5 & K6). exists (TB (label, f)), DA, (DB ++ [(label, f)]), loaded', es'. constructor; auto.
      * apply Forall2_app; [exact n1|]. constructor; [| constructor]. exists m. auto.
      * rewrite flat_map_app. cbn [flat_map aTag app]. rewrite app_nil_r. exact n2.
      * rewrite flat_map_app. cbn [flat_map bTag app]. rewrite <- app_assoc. cbn [app]. apply Permutation_trans with ((label, f) :: DB); [apply Permutation_sym, Permutation_cons_append|]. apply Permutation_cons_app. exact n3.
    + destruct C3 as (C3 & C4). exists loaded', es'. split; [| auto]. constructor; auto.
Qed.
Lemma errOf_app b (RA : list (str * str * str * res vres)) x : total (map (fun x => errOf b (snd x)) (RA ++ [x])) = total (map (fun x => errOf b (snd x)) RA) + errOf b (snd x).
Proof. rewrite map_app, totalApp. cbn [map total fold_right]. lia. Qed.
Lemma perm_mid {A} (a b c : list A) x : Permutation (a ++ x :: b ++ c) ((a ++ b) ++ c ++ [x]).
Proof. rewrite <- app_assoc. apply Permutation_trans with (a ++ (b ++ c) ++ [x]); [apply Permutation_app_head, Permutation_cons_append|]. now rewrite <- !app_assoc. Qed.
Lemma inv_result d a j b T DA RA DB RB loaded es d' : Inv d (a ++ j :: b) T DA RA DB RB loaded es -> verifyResult (vjKey j) (check j) d = Ok d' ->
  exists T' RA' RB', Inv d' (a ++ b) T' DA RA' DB RB' loaded es.
Proof.
  intros [n1 n2 n3 n4 n5 n6 n7 n8 n9] HR. apply Forall2_app_inv_l in n1. destruct n1 as (T1 & T2 & F1 & F2 & ->). inversion F2 as [| ? t ? T3 Ht F3]; subst. clear F2. exists (T1 ++ T3).
  assert (FT : Forall2 tagOk (a ++ b) (T1 ++ T3)) by (apply Forall2_app; assumption). rewrite !flat_map_app in *. cbn [flat_map] in *. destruct t as [((id, p), f) | (l, f)].
  - cbn [tagOk aTag bTag app] in *. rewrite (walJob_key _ _ _ _ _ Ht) in HR.
    assert (HD : In (id, p, f) DA) by (apply (Permutation_in _ (Permutation_sym n2)); apply in_or_app; left; apply in_or_app; right; now left).
    destruct (arch_result w o ids0 G1 G2 G3 G4 d DA RA loaded es id p f (check j) d' n4 HD HR) as (A1 & (A2 & A3 & A4 & A5 & A6) & A7 & A8).
    exists (RA ++ [(id, p, f, check j)]), RB. constructor; auto.
    + rewrite flat_map_app, map_app. cbn [map fst]. rewrite <- app_assoc in n2. cbn [app] in n2. apply (Permutation_trans n2). apply perm_mid.
    + rewrite flat_map_app. exact n3.
    + apply (ib_frame d); assumption.
    + intros x Hx. apply in_app_or in Hx. destruct Hx as [Hx | [<- | []]]; [exact (n6 x Hx)|]. cbn [fst snd walResult]. unfold walJob in Ht. destruct (decodeHex true _); cbn [bind] in Ht; try discriminate. injection Ht as <-. reflexivity.
    + rewrite errOf_app. cbn [snd]. replace (manErrs w cur0 d') with (manErrs w cur0 d) by (unfold manErrs; now rewrite A5). lia.
    + rewrite A6, A8. exact n9.
  - cbn [tagOk aTag bTag app] in *. destruct Ht as (m & M1 & M2 & M3 & ->). rewrite job_key in HR.
    assert (HD : In (l, f) DB) by (apply (Permutation_in _ (Permutation_sym n3)); apply in_or_app; left; apply in_or_app; right; now left).
    destruct (back_result w cur0 backs0 (proj1 Gback) (proj2 Gback) d DB RB l m f (check (jobOf l m f)) d' n5 HD M1 HR) as (A1 & A2 & A3 & A4 & A5).
    exists RA, (RB ++ [(l, f, check (jobOf l m f))]). constructor; auto.
    + rewrite flat_map_app. exact n2.
    + rewrite flat_map_app, map_app. cbn [map fst]. rewrite <- app_assoc in n3. cbn [app] in n3. apply (Permutation_trans n3). apply perm_mid.
    + apply (ia_frame d); assumption.
    + intros x Hx. apply in_app_or in Hx. destruct Hx as [Hx | [<- | []]]; [exact (n7 x Hx)|]. exists m. auto.
    + rewrite map_app, totalApp. cbn [map total fold_right snd]. rewrite A3, A4. lia.
    + destruct A2 as (D1 & _ & _ & _ & D5 & _). rewrite D1, D5. exact n9.
Qed.
Variable d0 : vdata.
Hypothesis Hfresh : fresh d0.
Hypothesis H0 : vdIds d0 = ids0 /\ vdBackups d0 = backs0 /\ vdCurrent d0 = cur0 /\ vdErrors d0 = e0 /\ vdFilter d0 = o.
Lemma inv_start : Inv d0 [] [] [] [] [] [] [] [].
Proof.
  destruct Hfresh as (F1 & F2 & F3 & F4 & F5 & F6). destruct H0 as (E1 & E2 & E3 & E4 & E5). assert (K : known d0 = false) by (unfold known; rewrite F4; reflexivity).
  constructor; cbn [flat_map app map].
  - constructor.
  - constructor.
  - constructor.
  - constructor.
    + unfold remP. rewrite K, E1. cbn [app]. destruct ids0; reflexivity.
    + unfold curT. rewrite K. destruct (vdIds d0); reflexivity.
    + unfold future. rewrite K, F4. exact E1.
    + rewrite K. exact F2.
    + constructor.
    + rewrite F4. intros a [].
    + intros x [].
    + exact E5.
  - constructor.
    + exact E3.
    + intros x [].
    + intros x [].
    + left. rewrite F5. split; [exact E2 | intros b []].
  - intros x [].
  - intros x [].
  - rewrite E4. unfold manErrs. rewrite F5. cbn. lia.
  - exact F6.
Qed.
Lemma inv_run s : vrun w check (d0, []) s -> exists T DA RA DB RB loaded es, Inv (fst s) (snd s) T DA RA DB RB loaded es.
Proof.
  intros H. remember (d0, @nil vjob) as s0 eqn:ES. induction H as [s | s t u H IH ST].
  - subst s. exists [], [], [], [], [], [], []. exact inv_start.
  - specialize (IH ES). destruct IH as (T & DA & RA & DB & RB & loaded & es & HI). inversion ST as [d l j d' HC | d l d' HC | d a j b d' HC]; subst; cbn [fst snd] in *.
    + pose proof (inv_callback _ _ _ _ _ _ _ _ _ _ _ HI HC) as (t & DA' & DB' & loaded' & es' & K). eauto 10.
    + pose proof (inv_callback _ _ _ _ _ _ _ _ _ _ _ HI HC) as (loaded' & es' & K & _). eauto 10.
    + destruct (inv_result _ _ _ _ _ _ _ _ _ _ _ _ HI HC) as (T' & RA' & RB' & K). eauto 10.
Qed.
Lemma bads_perm RA RA' id r b : Permutation RA RA' -> badsAre RA id r b -> badsAre RA' id r b.
Proof. intros P H. unfold badsAre in *. apply (Permutation_trans H). apply Permutation_map. clear -P. induction P; cbn [filter]; [constructor | destruct (_ && _); [now constructor | assumption] | destruct (_ && _), (_ && _); try constructor; apply Permutation_refl | eapply Permutation_trans; eassumption]. Qed.
Lemma filter_perm {A} (p : A -> bool) l l' : Permutation l l' -> length (filter p l) = length (filter p l').
Proof. induction 1; cbn [filter]; [reflexivity | destruct (p x); cbn [length]; congruence | destruct (p x), (p y); reflexivity | congruence]. Qed.
Lemma arch_perm RA RA' P a : Permutation RA RA' -> archIs w o RA P a -> archIs w o RA' P a.
Proof.
  intros HP (A1 & A2 & A3 & A4). split; [exact A1|]. split; [rewrite A2; f_equal; apply filter_perm, HP|]. split; [exact A3|]. apply (runs_impl _ _ _ _ _ A4). intros r b. now apply bads_perm.
Qed.
Lemma results_eq (RA : list (str * str * str * res vres)) g : (forall x, In x RA -> snd x = g (fst x)) -> RA = map (fun x => (x, g x)) (map fst RA).
Proof. induction RA as [| (t, r) RA IH]; intros H; [reflexivity|]. cbn [map fst]. pose proof (H (t, r) (or_introl eq_refl)) as E. cbn [fst snd] in E. rewrite E. f_equal. apply IH. intros x Hx. apply H. now right. Qed.
Lemma total_perm l l' : Permutation l l' -> total l = total l'.
Proof. unfold total. induction 1; cbn [fold_right]; lia. Qed.

(** What is known at the end *)
Lemma final d : completed w check d0 d ->
  (map vaId (vdArch d) = ids0 /\ forall a, In a (vdArch d) -> archIs w o (walResults w o check ids0) (strLstSortAsc (vwPaths w (vaId a))) a) /\
  exists RB es, map vkLabel (vdBack d) = backs0 /\ (forall x, In x RB -> backResult x /\ In (fst (fst x)) backs0) /\ (exists DB, Permutation DB (map fst RB) /\ forall b, In b (vdBack d) -> backOk w cur0 (vdBack d) DB RB b []) /\
    Forall2 (fun x e => dupsAre w o (fst x) (snd x) e) (walPaths w ids0) es /\
    vdErrors d = e0 + total es + manErrs w cur0 d + total (map (fun x => errOf true (snd x)) (walResults w o check ids0)) + total (map (fun x => errOf false (snd x)) RB).
Proof.
  intros (d1 & HR & HC). destruct (inv_run _ HR) as (T & DA & RA & DB & RB & loaded & es & HI). cbn [fst snd] in HI.
  destruct (inv_callback _ _ _ _ _ _ _ _ _ _ _ HI HC) as (loaded' & es' & [n1 n2 n3 n4 n5 n6 n7 n8 n9] & EI & EB). inversion n1; subst. cbn [flat_map app] in *.
  destruct n4 as [i1 i2 i3 i4 i5 i6 i7 i8]. assert (K : known d = false) by (unfold known; rewrite EI; now destruct (lastOf (vdArch d))).
  unfold remP in i1. rewrite EI, app_nil_r in i1. unfold curT in i2. rewrite EI, app_nil_r in i2. unfold future in i3. rewrite K, EI, app_nil_r in i3. subst loaded'.
  assert (PA : Permutation RA (walResults w o check ids0)). { rewrite (results_eq RA _ n6). unfold walResults. apply Permutation_map. apply Permutation_sym. rewrite <- i2. exact n2. }
  split.
  - split; [exact i3|]. intros a Ha. apply (arch_perm _ _ _ _ PA). assert (Hid : In (vaId a) ids0) by (rewrite <- i3; now apply in_map). rewrite <- (pathsOf_all w (vaId a) ids0 G1 Hid). exact (i6 a Ha).
  - exists RB, es'. destruct n5 as [b1 b2 b3 b4]. destruct b4 as [(b4 & b5) | (q & b & m & todo & r & _ & B2 & _)]; [| rewrite EB in B2; discriminate]. rewrite EB, app_nil_r in b4.
    split; [exact b4|]. split; [intros x Hx; split; [exact (n7 x Hx) | rewrite <- b4; exact (b2 _ (b3 x Hx))]|]. split; [exists DB; split; [exact n3 | exact b5]|]. split; [exact i5|]. rewrite n8. rewrite (total_perm _ _ (Permutation_map (fun x => errOf true (snd x)) PA)). reflexivity.
Qed.
End Whole.
