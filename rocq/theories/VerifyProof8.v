(** Errors, progress, and schedules. *)
From Coq Require Import String Sorting.Sorted Sorting.Permutation.
From Verif Require Import Base Str ConvertModel NumModel LsnModel LsnProof RegNameModel EncodeModel LinkCheckModel LinkCheckProof2 BuildProof4 ResumeModel VerifyModel VerifySpec VerifyProof VerifyProof2 VerifyProof3 VerifyProof4 VerifyProof5 VerifyProof6 VerifyProof7.
Open Scope Z_scope.
Open Scope list_scope.

Section Errors.
Variables (w : vworld) (check : vjob -> res vres) (d0 d : vdata).
Hypothesis G : good w d0.
Hypothesis HC : completed w check d0 d.

Lemma dups_nonneg o l es : Forall2 (fun x e => dupsAre w o (fst x) (snd x) e) l es -> forall e, In e es -> 0 <= e.
Proof. induction 1 as [| x e l es H _ IH]; intros y Hy; [destruct Hy|]. destruct Hy as [<- | Hy]; [| now apply IH]. destruct H as (ds & _ & -> & _). lia. Qed.
Lemma manErr_nonneg l : 0 <= manifestErr w (vdCurrent d0) l.
Proof. unfold manifestErr, manifestOf, verifyManifestFile. destruct (match vwMain w l with Ok m => _ | _ => _ end) as (om, s). destruct (match om with Some x => _ | None => _ end) as [m |], s; try destruct (vmFiles m); lia. Qed.
Lemma dups_zero o l es : Forall2 (fun x e => dupsAre w o (fst x) (snd x) e) l es -> (forall e, In e es -> e = 0) -> forall x f, In x l -> In f (listed w o (fst x) (snd x)) -> once (listed w o (fst x) (snd x)) f = true.
Proof.
  induction 1 as [| y e l es H _ IH]; intros Z x f Hx Hf; [destruct Hx|]. destruct Hx as [<- | Hx]; [| apply IH; auto; intros e' He; apply Z; now right].
  destruct H as (ds & _ & E & K). rewrite (Z e (or_introl eq_refl)) in E. destruct ds; [| cbn in E; lia]. destruct (once _ f) eqn:EO; [reflexivity|]. exfalso. apply (proj2 (K (firstn 24 f))). eauto.
Qed.
Lemma sum_split a b c e : 0 <= a -> 0 <= b -> 0 <= c -> 0 <= e -> a + b + c + e = 0 -> a = 0 /\ b = 0 /\ c = 0 /\ e = 0.
Proof. lia. Qed.

Lemma sound : 0 <= vdErrors d0 -> vdErrors d = 0 -> coherent w (vdCurrent d0) check (vdBackups d0) ->
  vdErrors d0 = 0 /\
  (forall id p f, In (id, p) (walPaths w (vdIds d0)) -> In f (listed w (vdFilter d0) id p) -> once (listed w (vdFilter d0) id p) f = true /\ (walResult w (vdFilter d0) check (id, p, f) = Ok VOk \/ walResult w (vdFilter d0) check (id, p, f) = Ok VMissing)) /\
  (forall l, In l (vdBackups d0) -> manifestErr w (vdCurrent d0) l = 0) /\
  (forall l m f, In l (vdBackups d0) -> usable w (vdCurrent d0) l m -> In f (vmFiles m) -> needed m f = true -> check (jobOf l m f) = Ok VOk).
Proof.
  intros N0 NE CO. destruct G as (G1 & G2 & G3 & G4). destruct (final2 w check d0 d G1 G2 G3 G4 HC) as (_ & RB & es & B1 & B2 & (DB & B3 & B4) & B5 & B6).
  pose proof (dups_nonneg _ _ _ B5) as P1. assert (Q1 : 0 <= sumZ es) by (rewrite <- (map_id es); apply sum_nonneg; exact P1).
  assert (Q2 : 0 <= sumZ (map (manifestErr w (vdCurrent d0)) (vdBackups d0))) by (apply sum_nonneg; intros x _; apply manErr_nonneg).
  assert (Q3 : 0 <= sumZ (map (fun x => counted true (snd x)) (walResults w (vdFilter d0) check (vdIds d0)))) by (apply sum_nonneg; intros x _; apply counted_nonneg).
  assert (Q4 : 0 <= sumZ (map (fun x => counted false (snd x)) RB)) by (apply sum_nonneg; intros x _; apply counted_nonneg).
  assert (Z1 : sumZ es = 0) by lia. assert (Z2 : sumZ (map (manifestErr w (vdCurrent d0)) (vdBackups d0)) = 0) by lia.
  assert (Z3 : sumZ (map (fun x => counted true (snd x)) (walResults w (vdFilter d0) check (vdIds d0))) = 0) by lia. assert (Z4 : sumZ (map (fun x => counted false (snd x)) RB) = 0) by lia.
  split; [lia|]. split; [| split].
  - intros id p f Hp Hf. assert (HO : once (listed w (vdFilter d0) id p) f = true).
    { apply (dups_zero _ _ _ B5) with (x := (id, p)); auto. intros e He. rewrite <- (map_id es) in Z1. exact (sum_zero (fun x => x) es P1 Z1 e He). }
    split; [exact HO|]. set (x := (id, p, f, walResult w (vdFilter d0) check (id, p, f))).
    assert (Hx : In x (walResults w (vdFilter d0) check (vdIds d0))). { apply in_map_iff. exists (id, p, f). split; [reflexivity|]. apply in_flat_map. exists (id, p). split; [exact Hp|]. apply in_map. apply filter_In. auto. }
    pose proof (sum_zero (fun x => counted true (snd x)) _ ltac:(intros y _; apply counted_nonneg) Z3 x Hx) as C. cbn [snd x] in C. destruct (walResult w (vdFilter d0) check (id, p, f)) as [[] | |]; cbn in C; auto; discriminate.
  - intros l Hl. exact (sum_zero _ _ ltac:(intros y _; apply manErr_nonneg) Z2 l Hl).
  - assert (RK : forall l f r, In (l, f, r) RB -> forall m, usable w (vdCurrent d0) l m -> check (jobOf l m f) = Ok VOk).
    { intros l f r Hr m HU. pose proof (sum_zero (fun x => counted false (snd x)) _ ltac:(intros y _; apply counted_nonneg) Z4 _ Hr) as C. cbn [snd] in C. destruct (B2 _ Hr) as ((m' & M1 & _ & _ & M2) & _).
      unfold usable in HU. change (manifestOf w (vdCurrent d0)) with (manOf w (vdCurrent d0)) in HU. rewrite M1 in HU. injection HU as <-. destruct r as [[] | |]; cbn in C; try discriminate. now symmetry. }
    intros l m f Hl HU Hf HN. destruct (file_fate w d0 d RB DB l m f B4 B3 B1 Hl HU Hf HN) as [(r & Hr) | (r & p & R1 & R2 & R3 & R4)]; [exact (RK l f r Hr m HU)|].
    destruct (done_usable w d0 d RB DB p B4 R2 R4) as (m' & HU'). rewrite R3 in HU'. destruct (CO l m f r m' Hl HU Hf HN R1 HU') as (g & K1 & K2 & K3 & K4). apply K4.
    assert (Hr : In r (vdBackups d0)) by (rewrite <- R3, <- B1; now apply in_map).
    destruct (file_fate w d0 d RB DB r m' g B4 B3 B1 Hr HU' K1 K2) as [(r' & Hr') | (r' & p' & X & _)]; [exact (RK r g r' Hr' m' HU') | congruence].
Qed.
Lemma alarm : vdErrors d <> vdErrors d0 ->
  (exists id p f, In (id, p) (walPaths w (vdIds d0)) /\ In f (listed w (vdFilter d0) id p) /\ once (listed w (vdFilter d0) id p) f = false) \/
  (exists id p f, In (id, p) (walPaths w (vdIds d0)) /\ In f (listed w (vdFilter d0) id p) /\ walResult w (vdFilter d0) check (id, p, f) <> Ok VOk /\ walResult w (vdFilter d0) check (id, p, f) <> Ok VMissing) \/
  (exists l, In l (vdBackups d0) /\ manifestErr w (vdCurrent d0) l <> 0) \/
  (exists l m f, In l (vdBackups d0) /\ usable w (vdCurrent d0) l m /\ In f (vmFiles m) /\ needed m f = true /\ check (jobOf l m f) <> Ok VOk).
Proof.
  intros NE. destruct G as (G1 & G2 & G3 & G4). destruct (final2 w check d0 d G1 G2 G3 G4 HC) as (_ & RB & es & B1 & B2 & (DB & B3 & B4) & B5 & B6).
  assert (Q1 : 0 <= sumZ es) by (rewrite <- (map_id es); apply sum_nonneg; exact (dups_nonneg _ _ _ B5)).
  assert (Q2 : 0 <= sumZ (map (manifestErr w (vdCurrent d0)) (vdBackups d0))) by (apply sum_nonneg; intros x _; apply manErr_nonneg).
  assert (Q3 : 0 <= sumZ (map (fun x => counted true (snd x)) (walResults w (vdFilter d0) check (vdIds d0)))) by (apply sum_nonneg; intros x _; apply counted_nonneg).
  assert (Q4 : 0 <= sumZ (map (fun x => counted false (snd x)) RB)) by (apply sum_nonneg; intros x _; apply counted_nonneg).
  assert (CS : 0 < sumZ es \/ 0 < sumZ (map (manifestErr w (vdCurrent d0)) (vdBackups d0)) \/ 0 < sumZ (map (fun x => counted true (snd x)) (walResults w (vdFilter d0) check (vdIds d0))) \/ 0 < sumZ (map (fun x => counted false (snd x)) RB)) by lia.
  destruct CS as [C | [C | [C | C]]].
  - left. rewrite <- (map_id es) in C. apply sum_pos in C. destruct C as (e & He & C). clear -B5 He C. induction B5 as [| x y l es H _ IH]; [destruct He|]. destruct He as [-> | He].
    + destruct H as (ds & _ & -> & K). destruct ds as [| s ds]; [cbn in C; lia|]. destruct (proj1 (K s) (or_introl eq_refl)) as (f & F1 & _ & F3). exists (fst x), (snd x), f. split; [left; now destruct x | auto].
    + destruct (IH He) as (id & p & f & K1 & K2). exists id, p, f. split; [now right | exact K2].
  - right. right. left. apply sum_pos in C. destruct C as (l & Hl & C). exists l. split; [exact Hl | lia].
  - right. left. apply sum_pos in C. destruct C as (x & Hx & C). apply in_map_iff in Hx. destruct Hx as (((id, p), f) & <- & Hx). cbn [snd] in C. apply in_flat_map in Hx. destruct Hx as ((id', p') & Hp & Hf). apply in_map_iff in Hf. destruct Hf as (f' & E & Hf). injection E as -> -> ->. cbn [fst snd] in Hf. apply filter_In in Hf. destruct Hf as [Hf _].
    exists id, p, f. split; [exact Hp|]. split; [exact Hf|]. destruct (walResult w (vdFilter d0) check (id, p, f)) as [[] | |]; cbn in C; try lia; split; discriminate.
  - right. right. right. apply sum_pos in C. destruct C as (((l, f), r) & Hx & C). cbn [snd] in C. destruct (B2 _ Hx) as ((m & M1 & M2 & M3 & M4) & ML). cbn [fst] in ML.
    exists l, m, f. split; [exact ML|]. split; [exact M1|]. split; [exact M2|]. split; [exact M3|]. intros E. rewrite M4, E in C. cbn in C. lia.
Qed.
End Errors.

(** * The result of a job that is out can be processed *)
Section Progress.
Variables (w : vworld) (check : vjob -> res vres) (d0 : vdata).
Hypothesis G : good w d0.
Lemma result_ok d a j b : vrun w check (d0, []) (d, a ++ j :: b) -> exists d', verifyResult (vjKey j) (check j) d = Ok d'.
Proof.
  intros H. destruct G as (Gids & Gsize & Gback & Hfresh). destruct (inv_run w check (vdFilter d0) (vdIds d0) (vdBackups d0) (vdCurrent d0) (vdErrors d0) Gids Gsize Gback d0 Hfresh ltac:(auto) _ H) as (T & DA & RA & DB & RB & loaded & es & HI). cbn [fst snd] in HI.
  destruct HI as [n1 n2 n3 n4 n5 n6 n7 n8 n9]. apply Forall2_app_inv_l in n1. destruct n1 as (T1 & T2 & F1 & F2 & ->). inversion F2 as [| ? t ? T3 Ht F3]; subst. clear F2. rewrite !flat_map_app in *. cbn [flat_map] in *. destruct t as [((id, p), f) | (l, f)].
  - cbn [tagOk aTag bTag app] in *. rewrite (walJob_key _ _ _ _ _ Ht). assert (HD : In (id, p, f) DA) by (apply (Permutation_in _ (Permutation_sym n2)); apply in_or_app; left; apply in_or_app; right; now left).
    assert (HDW : In (id, p, f) (walWork w (vdFilter d0) loaded)) by (rewrite <- (ia2 _ _ _ _ _ _ _ _ n4); apply in_or_app; now left). apply work_in in HDW. destruct HDW as [W1 W2].
    pose proof (ia_loaded _ _ _ _ _ _ _ _ _ n4 W1) as X. apply in_flat_map in X. destruct X as (i & Hid & X). apply in_map_iff in X. destruct X as (q & E2 & Hq). injection E2 as -> ->. assert (Hp : In p (vwPaths w id)) by exact (proj1 (strLstSortAsc_in _ _) Hq).
    assert (Hf : In f (vwFiles w id p)) by (apply filter_In in W2; destruct W2 as [W2 _]; apply filter_In in W2; destruct W2 as [W2 _]; exact (proj1 (strLstSortAsc_in _ _) W2)).
    destruct (G4 w _ Gids id p f Hid Hp Hf) as (N1 & N2 & N3). unfold verifyResult. rewrite (arch_split id p f N1 N2 N3). cbn zeta. rewrite strEqb_refl.
    assert (EX : existsb (fun a => sameId (vaId a) id) (vdArch d) = true).
    { pose proof Hid as Hid2. rewrite <- (ia3 _ _ _ _ _ _ _ _ n4) in Hid2. apply in_app_or in Hid2. destruct Hid2 as [X | X].
      - apply in_map_iff in X. destruct X as (c & Ec & Hc). apply existsb_exists. exists c. split; [exact Hc|]. apply (G3 w _ Gids); [rewrite Ec; exact Hid | exact Hid | exact Ec].
      - exfalso. pose proof (paths_nodup w (vdIds d0) (G1 w _ Gids) (G2 w _ Gids)) as ND. rewrite <- (ia1 _ _ _ _ _ _ _ _ n4) in ND. assert (Y : In (id, p) (remP w d)).
        { unfold remP. unfold future in X. assert (PW : forall l, In id l -> In (id, p) (walPaths w l)) by (intros l Hl; apply in_flat_map; exists id; split; [exact Hl | now apply in_map]). destruct (vdIds d) as [| i0 r0]; [destruct (known d); destruct X|]. destruct (known d); [apply in_or_app; right; exact (PW _ X) | exact (PW _ X)]. }
        clear -ND Y W1. induction loaded as [| y l IH]; [destruct W1|]. cbn [app] in ND. inversion ND as [| ? ? N1 N2]; subst. destruct W1 as [-> | W1]; [apply N1, in_or_app; now right | exact (IH W1 N2)]. }
    rewrite EX. cbn [negb]. eauto.
  - cbn [tagOk aTag bTag app] in *. destruct Ht as (m & M1 & M2 & M3 & ->). rewrite job_key. assert (HD : In (l, f) DB) by (apply (Permutation_in _ (Permutation_sym n3)); apply in_or_app; left; apply in_or_app; right; now left).
    destruct n5 as [i1 i2 i3 i4]. pose proof (i2 _ HD) as X. cbn [fst] in X. assert (HL : In l (vdBackups d0)).
    { destruct i4 as [(i4 & _) | (q & b0 & m0 & todo & r0 & K1 & K2 & K3 & _)]; [rewrite <- i4; apply in_or_app; now left|].
      rewrite <- K3, K2. rewrite K1, map_app in X. apply in_app_or in X. apply in_or_app. destruct X as [X | [<- | []]]; [now left | right; now left]. }
    destruct (key_split l m f (proj2 Gback l HL)) as (rs & E1 & E2). unfold verifyResult. rewrite E1, E2. replace (strEqb repoBackup repoArchive) with false by (vm_compute; reflexivity). rewrite strEqb_refl.
    replace (existsb (fun b => strEqb (vkLabel b) l) (vdBack d)) with true; [cbn [negb]; eauto|]. symmetry. apply existsb_exists. apply in_map_iff in X. destruct X as (c & Ec & Hc). exists c. split; [exact Hc|]. rewrite Ec. apply strEqb_refl.
Qed.
End Progress.

(** * Schedules that can be computed: [true] gives out a job, [false] takes the first result *)
Section Drive.
Variables (w : vworld) (check : vjob -> res vres).
Fixpoint drive (plan : list bool) (s : vdata * list vjob) : option (vdata * list vjob) :=
  match plan with
  | [] => Some s
  | true :: r => match verifyCallback w (fst s) with Ok (Some j, d) => drive r (d, snd s ++ [j]) | _ => None end
  | false :: r => match snd s with j :: l => match verifyResult (vjKey j) (check j) (fst s) with Ok d => drive r (d, l) | _ => None end | [] => None end
  end.
Lemma run_trans s t u : vrun w check s t -> vrun w check t u -> vrun w check s u.
Proof. intros H K. induction K as [| s' t' u' K IH ST]; [exact H|]. exact (RunMore _ _ _ _ _ (IH H) ST). Qed.
Lemma drive_run : forall plan s t, drive plan s = Some t -> vrun w check s t.
Proof.
  induction plan as [| [] r IH]; intros (d, l) t; cbn [drive fst snd].
  - intros E. injection E as <-. constructor.
  - destruct (verifyCallback w d) as [([j |], d1) | |] eqn:E; try discriminate. intros H. apply (run_trans _ (d1, l ++ [j])); [| exact (IH _ _ H)]. apply (RunMore _ _ _ (d, l)); [constructor | now constructor].
  - destruct l as [| j l]; [discriminate|]. destruct (verifyResult (vjKey j) (check j) d) as [d1 | |] eqn:E; try discriminate. intros H. apply (run_trans _ (d1, l)); [| exact (IH _ _ H)]. apply (RunMore _ _ _ (d, j :: l)); [constructor | exact (StepIn w check d [] j l d1 E)].
Qed.
Definition driven (plan : list bool) (d0 : vdata) : option vdata :=
  match drive plan (d0, []) with Some (d1, []) => match verifyCallback w d1 with Ok (None, d) => Some d | _ => None end | _ => None end.
Lemma driven_completed plan d0 d : driven plan d0 = Some d -> completed w check d0 d.
Proof.
  unfold driven. destruct (drive plan (d0, [])) as [(d1, [| j l]) |] eqn:E; try discriminate. destruct (verifyCallback w d1) as [([j |], d2) | |] eqn:E2; try discriminate. intros H. injection H as <-. exists d1. split; [exact (drive_run _ _ _ E) | exact E2].
Qed.
End Drive.
