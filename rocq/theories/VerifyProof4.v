(** The jobs for backups and the results of a backup. *)
From Coq Require Import String Sorting.Sorted Sorting.Permutation.
From Verif Require Import Base Str ConvertModel NumModel LsnModel LsnProof RegNameModel EncodeModel LinkCheckModel LinkCheckProof2 BuildProof4 VerifyModel VerifySpec VerifyProof VerifyProof2 VerifyProof3.
Open Scope Z_scope.
Open Scope list_scope.

Section Back.
Variables (w : vworld) (cur0 : option str) (backs0 : list str).
Hypothesis Hbacks : NoDup backs0.
Hypothesis Hslash : forall l, In l backs0 -> noSlash l.
Definition manOf (label : str) : option vman * vstatus * Z := verifyManifestFile w label (match cur0 with Some c => strEqb c label | None => false end).

(** What was done with a file: nothing to check, a job, or taken from the result of the backup it refers to *)
Inductive cls := CNone | CJob | CSkip (x : option vbad).
Definition clsOk (B : list vback) (m : vman) (x : vfile * cls) : Prop :=
  let (f, c) := x in
  match c with
  | CNone => needed m f = false
  | CJob => needed m f = true
  | CSkip y => needed m f = true /\ exists r p, vfRef f = Some r /\ In p B /\ vkLabel p = r /\ vkDone p = true /\ match y with None => True | Some y => In y (vkBad p) /\ vbName y = slashed r (vfName f ++ vmExt m) end
  end.
Definition clsValid (x : vfile * cls) : bool := match snd x with CNone | CSkip None => true | _ => false end.
Definition clsBad (x : vfile * cls) : list vbad := match snd x with CSkip (Some y) => [y] | _ => [] end.
Definition clsJob (x : vfile * cls) : list vfile := match snd x with CJob => [fst x] | _ => [] end.
Section Results.
Variable RB : list (str * vfile * res vres).
Definition okOf (label : str) (x : str * vfile * res vres) : bool := let '(l, _, r) := x in strEqb l label && negb (failed r).
Definition badOf (label : str) (m : vman) (x : str * vfile * res vres) : list vbad := let '(l, f, r) := x in if strEqb l label && failed r then [mkVbad (repoName label m f) (reason r)] else [].
Record midOk (all : list vback) (m : vman) (b : vback) (hc : list (vfile * cls)) : Prop := mkMid {
  mo1 : vkManifest b = Z.of_nat (length (vmFiles m));
  mo2 : vkVerify b = Z.of_nat (length hc);
  mo3 : Forall (clsOk all m) hc;
  mo4 : vkValid b = Z.of_nat (length (filter clsValid hc)) + Z.of_nat (length (filter (okOf (vkLabel b)) RB));
  mo5 : Permutation (vkBad b) (flat_map clsBad hc ++ flat_map (badOf (vkLabel b) m) RB);
  mo6 : vkStatus b = match vkBad b with [] => SValid | _ => SInvalid end;
  mo7 : vkDone b = true -> length hc = length (vmFiles m) }.

Lemma find_in l r p : findBack l r = Some p -> In p l /\ vkLabel p = r.
Proof. intros H. apply find_some in H. destruct H as [H E]. apply strEqb_eq in E. auto. Qed.
Lemma check_spec all m b hc f j b' : midOk all m b hc -> vkDone b = false -> checkFile m all b f = (j, b') ->
  exists c, midOk all m b' (hc ++ [(f, c)]) /\ vkDone b' = false /\ vkLabel b' = vkLabel b /\
    match j with Some j => c = CJob /\ j = jobOf (vkLabel b) m f | None => clsJob (f, c) = [] end.
Proof.
  intros [m1 m2 m3 m4 m5 m6 m7] ND.
  assert (V : forall c, clsOk all m (f, c) -> clsValid (f, c) = true -> midOk all m (addValid (addVerify b)) (hc ++ [(f, c)])).
  { intros c HC HV. constructor; cbn [addValid addVerify vkLabel vkStatus vkDone vkManifest vkVerify vkValid vkBad].
    - exact m1.
    - rewrite app_length, m2. cbn [length]. lia.
    - apply Forall_app. split; [exact m3 | constructor; [exact HC | constructor]].
    - rewrite filter_app. cbn [filter]. rewrite HV, app_length, m4. cbn [length]. lia.
    - rewrite flat_map_app. cbn [flat_map]. replace (clsBad (f, c)) with (@nil vbad); [rewrite !app_nil_r; exact m5|]. unfold clsValid, clsBad in *. cbn [snd] in *. destruct c as [| | [|]]; reflexivity || discriminate.
    - exact m6.
    - congruence. }
  assert (J : needed m f = true -> midOk all m (addVerify b) (hc ++ [(f, CJob)])).
  { intros HN. constructor; cbn [addValid addVerify vkLabel vkStatus vkDone vkManifest vkVerify vkValid vkBad].
    - exact m1.
    - rewrite app_length, m2. cbn [length]. lia.
    - apply Forall_app. split; [exact m3 | constructor; [exact HN | constructor]].
    - rewrite filter_app. cbn [filter clsValid snd]. rewrite app_nil_r. exact m4.
    - rewrite flat_map_app. cbn [flat_map clsBad snd app]. rewrite app_nil_r. exact m5.
    - exact m6.
    - congruence. }
  unfold checkFile. cbn zeta. cbn [addVerify vkLabel]. fold (needed m f). fold (addVerify b). destruct (needed m f) eqn:HN.
  - destruct (vfRef f) as [r |] eqn:ER.
    2:{ intros H. injection H as <- <-. exists CJob. split; [now apply J|]. repeat split; auto. unfold jobOf, repoName, ownerOf, fileJob, repoPath. rewrite ER. reflexivity. }
    destruct (findBack (all ++ [addVerify b]) r) as [p |] eqn:EF.
    2:{ intros H. injection H as <- <-. exists CJob. split; [now apply J|]. repeat split; auto. unfold jobOf, repoName, ownerOf, fileJob, repoPath. rewrite ER. reflexivity. }
    destruct (vkDone p) eqn:DP.
    2:{ intros H. injection H as <- <-. exists CJob. split; [now apply J|]. repeat split; auto. unfold jobOf, repoName, ownerOf, fileJob, repoPath. rewrite ER. reflexivity. }
    destruct (find_in _ _ _ EF) as (IP & LP). assert (IA : In p all) by (apply in_app_or in IP; destruct IP as [IP | [<- | []]]; [exact IP | cbn [addVerify vkDone] in DP; congruence]).
    destruct (find _ (vkBad p)) as [x |] eqn:EB.
    + apply find_some in EB. destruct EB as [EB1 EB2]. apply strEqb_eq in EB2. intros H. injection H as <- <-. exists (CSkip (Some x)). split; [| auto].
      constructor; cbn [addBad addVerify vkLabel vkStatus vkDone vkManifest vkVerify vkValid vkBad].
      * exact m1.
      * rewrite app_length, m2. cbn [length]. lia.
      * apply Forall_app. split; [exact m3|]. constructor; [| constructor]. split; [exact HN|]. exists r, p. auto 10.
      * rewrite filter_app. cbn [filter clsValid snd]. rewrite app_nil_r. exact m4.
      * rewrite flat_map_app. cbn [flat_map clsBad snd app]. rewrite <- app_assoc. apply Permutation_trans with ((flat_map clsBad hc ++ flat_map (badOf (vkLabel b) m) RB) ++ [x]); [apply Permutation_app_tail; exact m5|].
        rewrite <- app_assoc. apply Permutation_app_head. apply Permutation_app_comm.
      * destruct (vkBad b); reflexivity.
      * congruence.
    + intros H. injection H as <- <-. exists (CSkip None). split; [| auto]. apply V; [| reflexivity]. split; [exact HN|]. exists r, p. auto 10.
  - intros H. injection H as <- <-. exists CNone. split; [| auto]. now apply V.
Qed.
Lemma file_loop all m : forall todo b hc j todo' b', midOk all m b hc -> vkDone b = false -> fileLoop m all todo b = (j, todo', b') ->
  exists new, todo = map fst new ++ todo' /\ midOk all m b' (hc ++ new) /\ vkDone b' = false /\ vkLabel b' = vkLabel b /\
    match j with Some j => exists f, In f todo /\ flat_map clsJob new = [f] /\ j = jobOf (vkLabel b) m f | None => todo' = [] /\ flat_map clsJob new = [] end.
Proof.
  induction todo as [| f r IH]; intros b hc j todo' b' HM HD; cbn [fileLoop].
  - intros H. injection H as <- <- <-. exists []. split; [reflexivity|]. rewrite app_nil_r. auto 10.
  - destruct (checkFile m all b f) as (j0, b0) eqn:EC. destruct (check_spec _ _ _ _ _ _ _ HM HD EC) as (c & C1 & C2 & C3 & C4). destruct j0 as [j0 |].
    + intros H. injection H as <- <- <-. destruct C4 as (-> & C4). exists [(f, CJob)]. split; [reflexivity|]. split; [exact C1|]. split; [exact C2|]. split; [exact C3|]. exists f. split; [now left|]. split; [reflexivity | exact C4].
    + intros H. destruct (IH _ _ _ _ _ C1 C2 H) as (new & I1 & I2 & I3 & I4 & I5). exists ((f, c) :: new). split; [cbn [map fst app]; now rewrite <- I1|]. rewrite <- app_assoc in I2. split; [exact I2|]. split; [exact I3|]. split; [congruence|].
      cbn [flat_map]. rewrite C4. cbn [app]. rewrite C3 in I5. destruct j as [j |]; [| exact I5]. destruct I5 as (g & G). exists g. destruct G as (G1 & G2). split; [now right | exact G2].
Qed.
End Results.

Definition ofLabel {A} (l : str) (x : str * A) : bool := strEqb (fst x) l.
Definition backOk (B : list vback) (DB : list (str * vfile)) (RB : list (str * vfile * res vres)) (b : vback) (todo : list vfile) : Prop :=
  match manOf (vkLabel b) with
  | (Some m, _, _) =>
      match vmFiles m with
      | [] => b = newBack (vkLabel b) SInvalid 0 /\ filter (ofLabel (vkLabel b)) DB = []
      | _ => exists hc, map fst hc ++ todo = vmFiles m /\ midOk RB B m b hc /\ map snd (filter (ofLabel (vkLabel b)) DB) = flat_map clsJob hc
      end
  | (None, s, _) => b = newBack (vkLabel b) s 0 /\ filter (ofLabel (vkLabel b)) DB = []
  end.
Record IB (d : vdata) (DB : list (str * vfile)) (RB : list (str * vfile * res vres)) : Prop := mkIB {
  ib1 : vdCurrent d = cur0;
  ib2 : forall x, In x DB -> In (fst x) (map vkLabel (vdBack d));
  ib3 : forall x, In x RB -> In (fst x) DB;
  ib4 : (map vkLabel (vdBack d) ++ vdBackups d = backs0 /\ forall b, In b (vdBack d) -> backOk (vdBack d) DB RB b []) \/
        exists q b m todo r, vdBack d = q ++ [b] /\ vdBackups d = vkLabel b :: r /\ map vkLabel q ++ vdBackups d = backs0 /\ vdMan d = Some (m, todo) /\ todo <> [] /\ vkDone b = false /\
          fst (fst (manOf (vkLabel b))) = Some m /\ vmFiles m <> [] /\ (forall x, In x q -> backOk (vdBack d) DB RB x []) /\ backOk (vdBack d) DB RB b todo }.
(** The results that refer to others stay right when others gain results *)
Definition gains (B B' : list vback) : Prop := forall p, In p B -> vkDone p = true -> exists p', In p' B' /\ vkLabel p' = vkLabel p /\ vkDone p' = true /\ incl (vkBad p) (vkBad p').
Lemma cls_gains B B' m x : gains B B' -> clsOk B m x -> clsOk B' m x.
Proof.
  intros G. destruct x as (f, c). destruct c as [| | y]; cbn [clsOk]; auto. intros (HN & r & p & R1 & R2 & R3 & R4 & R5). split; [exact HN|]. destruct (G p R2 R4) as (p' & P1 & P2 & P3 & P4).
  exists r, p'. split; [exact R1|]. split; [exact P1|]. split; [congruence|]. split; [exact P3|]. destruct y as [y |]; [| exact I]. destruct R5 as [R5 R6]. split; [exact (P4 _ R5) | exact R6].
Qed.
Lemma mid_gains RB B B' m b hc : gains B B' -> midOk RB B m b hc -> midOk RB B' m b hc.
Proof. intros G [m1 m2 m3 m4 m5 m6 m7]. constructor; auto. apply Forall_forall. rewrite Forall_forall in m3. intros x Hx. exact (cls_gains _ _ _ _ G (m3 x Hx)). Qed.
Lemma gains_last q b b' : vkDone b = false -> gains (q ++ [b]) (q ++ [b']).
Proof. intros H p Hp Dp. apply in_app_or in Hp. destruct Hp as [Hp | [<- | []]]; [| congruence]. exists p. repeat split; auto; [apply in_or_app; now left | apply incl_refl]. Qed.
Lemma gains_drop q b : vkDone b = false -> gains (q ++ [b]) q.
Proof. intros H p Hp Dp. apply in_app_or in Hp. destruct Hp as [Hp | [<- | []]]; [| congruence]. exists p. repeat split; auto. apply incl_refl. Qed.
Lemma gains_add q l : gains q (q ++ l).
Proof. intros p Hp Dp. exists p. repeat split; auto; [apply in_or_app; now left | apply incl_refl]. Qed.
Lemma back_gains B B' DB RB b todo : gains B B' -> backOk B DB RB b todo -> backOk B' DB RB b todo.
Proof.
  intros G. unfold backOk. destruct (manOf (vkLabel b)) as (([m |], s), e); auto. destruct (vmFiles m); auto. intros (hc & H1 & H2 & H3). exists hc. split; [exact H1|]. split; [exact (mid_gains _ _ _ _ _ _ G H2) | exact H3].
Qed.
Lemma back_job B DB RB b todo l f : vkLabel b <> l -> backOk B DB RB b todo -> backOk B (DB ++ [(l, f)]) RB b todo.
Proof.
  intros N. unfold backOk. replace (filter (ofLabel (vkLabel b)) (DB ++ [(l, f)])) with (filter (ofLabel (vkLabel b)) DB); [auto|]. rewrite filter_app. cbn [filter]. replace (ofLabel (vkLabel b) (l, f)) with false by (symmetry; apply strEqb_neq; cbn [fst]; congruence). now rewrite app_nil_r.
Qed.
Lemma filter_ofLabel_none (DB : list (str * vfile)) l : (forall x, In x DB -> fst x <> l) -> filter (ofLabel l) DB = [].
Proof. intros H. apply filter_nothing. intros x Hx. apply strEqb_neq. exact (H x Hx). Qed.

Lemma file_step d' q b m s e todo r hc DB RB j todo' b' : map vkLabel q ++ vkLabel b :: r = backs0 -> (forall x, In x q -> backOk (q ++ [b]) DB RB x []) -> manOf (vkLabel b) = (Some m, s, e) ->
  vmFiles m <> [] -> map fst hc ++ todo = vmFiles m -> midOk RB q m b hc -> map snd (filter (ofLabel (vkLabel b)) DB) = flat_map clsJob hc -> vkDone b = false ->
  (forall x, In x DB -> In (fst x) (map vkLabel (q ++ [b]))) -> (forall x, In x RB -> In (fst x) DB) -> fileLoop m q todo b = (j, todo', b') ->
  vdBack d' = q ++ [b'] -> vdMan d' = match todo' with [] => None | _ => Some (m, todo') end -> vdBackups d' = match todo' with [] => r | _ => vkLabel b :: r end -> vdCurrent d' = cur0 ->
  match j with
  | None => todo' = [] /\ IB d' DB RB
  | Some j => exists f, In f (vmFiles m) /\ needed m f = true /\ j = jobOf (vkLabel b) m f /\ IB d' (DB ++ [(vkLabel b, f)]) RB
  end.
Proof.
  intros EL HQ EM NE EH HM HJ ND HD HR EF E1 E2 E3 E4. destruct (file_loop RB q m todo b hc j todo' b' HM ND EF) as (new & F1 & F2 & F3 & F4 & F5).
  assert (FILES : map fst (hc ++ new) ++ todo' = vmFiles m) by (rewrite map_app, <- app_assoc, <- F1; exact EH).
  assert (ND0 : NoDup (map vkLabel q ++ vkLabel b :: r)) by (rewrite EL; exact Hbacks).
  assert (NQ : forall x, In x q -> vkLabel x <> vkLabel b). { intros x Hx E. apply NoDup_remove_2 in ND0. apply ND0, in_or_app. left. rewrite <- E. now apply in_map. }
  assert (FIN : forall DB', (forall x, In x DB' -> In (fst x) (map vkLabel (q ++ [b]))) -> (forall x, In x DB -> In x DB') -> (forall x, In x q -> backOk (q ++ [b]) DB' RB x []) ->
    map snd (filter (ofLabel (vkLabel b)) DB') = flat_map clsJob (hc ++ new) -> IB d' DB' RB).
  { intros DB' K1 K2 K3 K4.
    assert (BK : backOk (q ++ [b']) DB' RB b' todo').
    { unfold backOk. rewrite F4, EM. destruct (vmFiles m) eqn:EV; [now elim NE|]. rewrite <- EV in *. exists (hc ++ new). split; [exact FILES|]. split; [exact (mid_gains _ _ _ _ _ _ (gains_add q [b']) F2) | exact K4]. }
    assert (QK : forall x, In x q -> backOk (q ++ [b']) DB' RB x []) by (intros x Hx; exact (back_gains _ _ _ _ _ _ (gains_last q b b' ND) (K3 x Hx))).
    constructor; [exact E4 | | intros x Hx; apply K2, HR, Hx |].
    - intros x Hx. rewrite E1. specialize (K1 x Hx). rewrite map_app in *. cbn [map] in *. now rewrite F4.
    - destruct todo' as [| t ts]; [left | right].
      + rewrite E1, E3. split; [rewrite map_app; cbn [map]; rewrite F4, <- app_assoc; exact EL|]. intros x Hx. apply in_app_or in Hx. destruct Hx as [Hx | [<- | []]]; [exact (QK x Hx) | exact BK].
      + exists q, b', m, (t :: ts), r. rewrite E1, E3, F4. split; [reflexivity|]. split; [reflexivity|]. split; [exact EL|]. split; [exact E2|]. split; [discriminate|]. split; [exact F3|]. split; [rewrite EM; reflexivity|]. split; [exact NE|]. split; [exact QK | exact BK]. }
  destruct j as [j |].
  - destruct F5 as (f & G1 & G2 & G3). exists f. split; [rewrite <- EH; apply in_or_app; now right|]. split; [| split; [exact G3|]].
    + destruct F2 as [_ _ F2 _ _ _ _]. rewrite Forall_forall in F2. assert (X : In (f, CJob) new).
      { assert (Y : In f (flat_map clsJob new)) by (rewrite G2; now left). apply in_flat_map in Y. destruct Y as ((g, c) & Hy & Y). unfold clsJob in Y. cbn [snd fst] in Y. destruct c; [destruct Y | destruct Y as [-> | []]; exact Hy | destruct Y]. }
      exact (F2 _ (in_or_app _ _ _ (or_intror X))).
    + apply FIN.
      * intros x Hx. apply in_app_or in Hx. destruct Hx as [Hx | [<- | []]]; [exact (HD x Hx)|]. rewrite map_app. cbn [map fst]. apply in_or_app. right. now left.
      * intros x Hx. apply in_or_app. now left.
      * intros x Hx. apply back_job; [exact (NQ x Hx) | exact (HQ x Hx)].
      * rewrite filter_app, map_app, flat_map_app, HJ, G2. cbn [filter]. replace (ofLabel (vkLabel b) (vkLabel b, f)) with true by (symmetry; apply strEqb_refl). reflexivity.
  - destruct F5 as (-> & G). split; [reflexivity|]. apply FIN; auto. rewrite flat_map_app, HJ, G, app_nil_r. reflexivity.
Qed.
Definition manErr (label : str) : Z := match manOf label with (Some m, _, e) => e + match vmFiles m with [] => 1 | _ => 0 end | (None, _, e) => e end.
Definition manErrs (d : vdata) : Z := total (map manErr (map vkLabel (vdBack d))).
Definition sameArch (d d' : vdata) : Prop := vdIds d' = vdIds d /\ vdPaths d' = vdPaths d /\ vdFiles d' = vdFiles d /\ vdArch d' = vdArch d /\ vdBackupNow d' = vdBackupNow d /\ vdFilter d' = vdFilter d.
Lemma man_valid label m s e : manOf label = (Some m, s, e) -> s = SValid /\ e = 0.
Proof.
  unfold manOf, verifyManifestFile. destruct (match vwMain w label with Ok m0 => (Some m0, SValid) | _ => _ end) as (m0, s0) eqn:E.
  assert (X : m0 <> None -> s0 = SValid).
  { destruct (vwMain w label); [injection E as <- <-; auto | |];
    (destruct (_ && _); [injection E as <- <-; intros F; now elim F|]; destruct (vwCopy w label); injection E as <- <-; [reflexivity | intros F; now elim F | intros F; now elim F]). }
  destruct m0 as [m0 |].
  - rewrite (X ltac:(discriminate)). destruct (existsb _ _); intros H; [injection H as _ <- <-; auto | discriminate].
  - destruct s0; intros H; discriminate.
Qed.
Lemma total_app a b : total (a ++ b) = total a + total b.
Proof. unfold total. rewrite fold_right_app. induction a as [| x a IH]; cbn [fold_right]; lia. Qed.
Lemma backupLoop_spec : forall backups d DB RB, IB d DB RB -> vdBackups d = backups -> forall j d', backupLoop w backups d = Ok (j, d') ->
  vdErrors d' - manErrs d' = vdErrors d - manErrs d /\ sameArch d d' /\
  match j with
  | None => IB d' DB RB /\ vdBackups d' = []
  | Some j => exists label m f, fst (fst (manOf label)) = Some m /\ In f (vmFiles m) /\ needed m f = true /\ j = jobOf label m f /\ In label backs0 /\ IB d' (DB ++ [(label, f)]) RB
  end.
Proof.
  induction backups as [| label r IH]; intros d DB RB HI EB j d'; cbn [backupLoop].
  - intros H. injection H as <- <-. cbn [vdErrors vdBack vdBackups]. split; [reflexivity|]. split; [repeat split|]. split; [| reflexivity]. destruct d as [x1 x2 x3 x4 x5 x6 x7 x8 x9 x10 x11]. cbn [vdBackups] in EB. subst x4. exact HI.
  - destruct HI as [i1 i2 i3 [(i4 & i5) | (q & b & m & todo & r0 & K1 & K2 & K3 & K4 & K5 & K6 & K7 & K10 & K8 & K9)]].
    + (* a new label *)
      rewrite EB in i4. assert (ND : NoDup (map vkLabel (vdBack d) ++ label :: r)) by (rewrite i4; exact Hbacks).
      assert (NL : forall b, In b (vdBack d) -> vkLabel b <> label). { intros b Hb E. apply NoDup_remove_2 in ND. apply ND, in_or_app. left. rewrite <- E. now apply in_map. }
      assert (ND2 : forall x, In x DB -> fst x <> label). { intros x Hx E. apply NoDup_remove_2 in ND. apply ND, in_or_app. left. rewrite <- E. exact (i2 x Hx). }
      assert (NR : forall x, In x RB -> fst (fst x) <> label) by (intros x Hx; exact (ND2 _ (i3 x Hx))).
      replace (match lastOf (vdBack d) with Some b => strEqb (vkLabel b) label | None => false end) with false.
      2:{ symmetry. destruct (lastOf (vdBack d)) as [b |] eqn:EL; [| reflexivity]. destruct (lastOf_some _ _ EL) as (q & E). apply strEqb_neq. apply NL. rewrite E. apply in_or_app. right. now left. }
      replace (match vdCurrent d with Some c => strEqb c label | None => false end) with (match cur0 with Some c => strEqb c label | None => false end) by now rewrite i1.
      change (verifyManifestFile w label (match cur0 with Some c => strEqb c label | None => false end)) with (manOf label).
      destruct (manOf label) as ((om, s), e) eqn:EM.
      assert (ADD : forall b0, vkLabel b0 = label -> vkDone b0 = false -> backOk (vdBack d ++ [b0]) DB RB b0 [] -> forall man er, 
        IB (mkVdata (vdIds d) (vdPaths d) (vdFiles d) r man (vdCurrent d) (vdBackupNow d) er (vdArch d) (vdBack d ++ [b0]) (vdFilter d)) DB RB).
      { intros b0 L0 D0 B0 man er. constructor; cbn [vdCurrent vdBack vdBackups vdMan]; [exact i1 | | exact i3 | left].
        - intros x Hx. rewrite map_app. apply in_or_app. left. exact (i2 x Hx).
        - split; [rewrite map_app, <- app_assoc; cbn [map app]; rewrite L0; exact i4|]. intros x Hx. apply in_app_or in Hx. destruct Hx as [Hx | [<- | []]]; [exact (back_gains _ _ _ _ _ _ (gains_add _ _) (i5 x Hx)) | exact B0]. }
      destruct om as [m |].
      * destruct (man_valid _ _ _ _ EM) as [-> ->]. rewrite lastOf_app. destruct (vmFiles m) as [| f0 fs] eqn:EV.
        -- (* empty *)
           rewrite setLast_app. cbn [setStatus newBack vkLabel vkDone vkManifest vkVerify vkValid vkBad]. intros H.
           specialize (IH _ DB RB (ADD (mkVback label SInvalid false 0 0 0 []) eq_refl eq_refl ltac:(unfold backOk; cbn [vkLabel]; rewrite EM, EV; split; [reflexivity | exact (filter_ofLabel_none DB label ND2)]) _ _) eq_refl _ _ H).
           destruct IH as (A1 & A2 & A3). split; [| split; [exact A2 | exact A3]]. rewrite A1. unfold manErrs. cbn [vdErrors vdBack]. rewrite !map_app, total_app. cbn [map total fold_right vkLabel]. replace (manErr label) with 1; [lia|]. unfold manErr. rewrite EM, EV. reflexivity.
        -- rewrite <- EV. rewrite removelast_last. destruct (fileLoop _ _ _ _) as ((j0, todo'), b') eqn:EF.
           rewrite setLast_app.
           set (b0 := newBack label SValid (Z.of_nat (length (vmFiles m)))) in *. set (d1 := mkVdata _ _ _ _ _ _ _ _ _ _ _).
           assert (M0 : midOk RB (vdBack d) m b0 []).
           { constructor; unfold b0, newBack; cbn [vkLabel vkStatus vkDone vkManifest vkVerify vkValid vkBad length filter flat_map app]; try reflexivity; [constructor | | | discriminate].
             - rewrite filter_nothing; [reflexivity|]. intros ((l, g), x) Hx. unfold okOf. replace (strEqb l label) with false; [reflexivity|]. symmetry. apply strEqb_neq. exact (NR _ Hx).
             - replace (flat_map (badOf label m) RB) with (@nil vbad); [constructor|]. clear -NR. induction RB as [| ((l, g), x) RB IH]; [reflexivity|]. cbn [flat_map badOf]. replace (strEqb l label) with false by (symmetry; apply strEqb_neq; exact (NR _ (or_introl eq_refl))). cbn [andb app]. apply IH. intros y Hy. apply NR. now right. }
           pose proof (file_step d1 (vdBack d) b0 m SValid 0 (vmFiles m) r [] DB RB j0 todo' b') as FS. cbn [vkLabel b0 newBack] in FS. fold b0 in FS.
           specialize (FS i4 ltac:(intros x Hx; exact (back_gains _ _ _ _ _ _ (gains_add _ _) (i5 x Hx))) EM ltac:(rewrite EV; discriminate) eq_refl M0 ltac:(rewrite (filter_ofLabel_none DB label ND2); reflexivity) eq_refl
             ltac:(intros x Hx; rewrite map_app; apply in_or_app; left; exact (i2 x Hx)) i3 EF eq_refl eq_refl).
           specialize (FS eq_refl i1).
           assert (EQ : vdErrors d1 - manErrs d1 = vdErrors d - manErrs d).
           { assert (LB : vkLabel b' = label). { destruct (file_loop RB _ _ _ _ _ _ _ _ M0 eq_refl EF) as (_ & _ & _ & _ & L & _). exact L. }
             unfold manErrs, d1. cbn [vdErrors vdBack]. rewrite !map_app, total_app. cbn [map total fold_right]. rewrite LB. replace (manErr label) with 0; [lia|]. unfold manErr. rewrite EM, EV. reflexivity. }
           destruct j0 as [j0 |].
           ++ intros H. injection H as <- <-. split; [exact EQ|]. split; [repeat split|]. destruct FS as (f & G1 & G2 & G3 & G4). exists label, m, f. rewrite EM. split; [reflexivity|]. split; [exact G1|]. split; [exact G2|]. split; [exact G3|]. split; [rewrite <- i4; apply in_or_app; right; now left | exact G4].
           ++ intros H. destruct FS as (-> & G). destruct (IH _ DB RB G eq_refl _ _ H) as (A1 & A2 & A3). split; [rewrite A1; exact EQ|]. split; [exact A2 | exact A3].
      * intros H. specialize (IH _ DB RB (ADD (newBack label s 0) eq_refl eq_refl ltac:(unfold backOk; cbn [vkLabel newBack]; rewrite EM; split; [reflexivity | exact (filter_ofLabel_none DB label ND2)]) _ _) eq_refl _ _ H).
        destruct IH as (A1 & A2 & A3). split; [| split; [exact A2 | exact A3]]. rewrite A1. unfold manErrs. cbn [vdErrors vdBack]. rewrite !map_app, total_app. cbn [map total fold_right vkLabel newBack]. replace (manErr label) with e; [lia|]. unfold manErr. now rewrite EM.
    + (* the current label *)
      rewrite EB in K2, K3. injection K2 as -> <-. rewrite K1, lastOf_app, strEqb_refl, K4, removelast_last. destruct todo as [| t ts] eqn:ET; [now elim K5|]. rewrite <- ET in *. clear ET.
      rewrite ?lastOf_app, ?removelast_last. destruct (fileLoop m q todo b) as ((j0, todo'), b') eqn:EF. rewrite ?setLast_app. set (d1 := mkVdata _ _ _ _ _ _ _ _ _ _ _).
      destruct (manOf (vkLabel b)) as ((om, s), e) eqn:EM. cbn [fst] in K7. subst om. rewrite K1 in *.
      assert (NE : exists hc, map fst hc ++ todo = vmFiles m /\ midOk RB (q ++ [b]) m b hc /\ map snd (filter (ofLabel (vkLabel b)) DB) = flat_map clsJob hc).
      { unfold backOk in K9. rewrite EM in K9. destruct (vmFiles m) as [| f0 fs] eqn:EV; [now elim K10 | exact K9]. }
      destruct NE as (hc & H1 & H2 & H3). destruct (man_valid _ _ _ _ EM) as [-> ->].
      pose proof (mid_gains _ _ _ _ _ _ (gains_drop q b K6) H2) as H2'.
      pose proof (file_step d1 q b m SValid 0 todo r hc DB RB j0 todo' b' K3 K8 EM K10 H1 H2' H3 K6 i2 i3 EF eq_refl eq_refl eq_refl i1) as FS.
      assert (EQ : vdErrors d1 - manErrs d1 = vdErrors d - manErrs d).
      { assert (LB : vkLabel b' = vkLabel b). { destruct (file_loop RB _ _ _ _ _ _ _ _ H2' K6 EF) as (_ & _ & _ & _ & L & _). exact L. }
        unfold manErrs, d1. cbn [vdErrors vdBack]. rewrite K1, !map_app. cbn [map]. rewrite LB. lia. }
      destruct j0 as [j0 |].
      * intros H. injection H as <- <-. split; [exact EQ|]. split; [repeat split|]. destruct FS as (f & G1 & G2 & G3 & G4). exists (vkLabel b), m, f. rewrite EM. split; [reflexivity|]. split; [exact G1|]. split; [exact G2|]. split; [exact G3|]. split; [rewrite <- K3; apply in_or_app; right; now left | exact G4].
      * intros H. destruct FS as (-> & G). destruct (IH _ DB RB G eq_refl _ _ H) as (A1 & A2 & A3). split; [rewrite A1; exact EQ|]. split; [exact A2 | exact A3].
Qed.
End Back.
