(** The result of a job for a backup. *)
From Coq Require Import String Sorting.Sorted Sorting.Permutation.
From Verif Require Import Base Str ConvertModel NumModel LsnModel LsnProof RegNameModel EncodeModel LinkCheckModel LinkCheckProof2 BuildProof4 VerifyModel VerifySpec VerifyProof VerifyProof2 VerifyProof3 VerifyProof4.
Open Scope Z_scope.
Open Scope list_scope.

Lemma join_split s : joinSlash (splitSlash s) = s.
Proof.
  induction s as [| c s IH]; [reflexivity|]. cbn [splitSlash]. destruct (Z.eqb_spec c 47) as [-> | N].
  - destruct (splitSlash s) as [| h t] eqn:E; [destruct s as [| x s]; cbn [splitSlash] in E; [discriminate | destruct (x =? 47); [discriminate | destruct (splitSlash s); discriminate]]|]. cbn [joinSlash app]. cbn [joinSlash] in IH. now rewrite IH.
  - destruct (splitSlash s) as [| h t] eqn:E; [cbn in IH |- *; now rewrite <- IH|]. cbn [joinSlash] in *. destruct t; rewrite <- IH; reflexivity.
Qed.
Lemma updFirst_upd {A} (p : A -> bool) g (l : list A) : NoDup l -> (forall x y, In x l -> In y l -> p x = true -> p y = true -> x = y) -> updFirst p g l = map (fun x => if p x then g x else x) l.
Proof.
  induction l as [| x l IH]; intros N H; [reflexivity|]. inversion N as [| ? ? N1 N2]; subst. cbn [updFirst map]. destruct (p x) eqn:E.
  - f_equal. rewrite <- (map_id l) at 1. apply map_ext_in. intros y Hy. destruct (p y) eqn:F; [| reflexivity]. elim N1. rewrite (H x y); auto; [now left | now right].
  - f_equal. apply IH; [exact N2|]. intros a b Ha Hb. apply H; now right.
Qed.
Lemma nodup_map_inv {A B} (f : A -> B) l : NoDup (map f l) -> NoDup l.
Proof. induction l as [| x l IH]; intros H; [constructor|]. inversion H as [| ? ? N1 N2]; subst. constructor; [intros F; apply N1, in_map, F | exact (IH N2)]. Qed.
Lemma nodup_map_eq {A B} (f : A -> B) l x y : NoDup (map f l) -> In x l -> In y l -> f x = f y -> x = y.
Proof.
  induction l as [| z l IH]; intros N Hx Hy E; [destruct Hx|]. inversion N as [| ? ? N1 N2]; subst. destruct Hx as [-> | Hx], Hy as [-> | Hy]; auto; [elim N1; rewrite E; now apply in_map | elim N1; rewrite <- E; now apply in_map].
Qed.

Section Back.
Variables (w : vworld) (cur0 : option str) (backs0 : list str).
Hypothesis Hbacks : NoDup backs0.
Hypothesis Hslash : forall l, In l backs0 -> noSlash l.
Notation manOf := (manOf w cur0).
Notation IB := (IB w cur0 backs0).
Notation backOk := (backOk w cur0).
Notation manErrs := (manErrs w cur0).

Definition backKey (l : str) (m : vman) (f : vfile) : str := slashed l (slashed repoBackup (repoName l m f)).
Lemma job_key l m f : vjKey (jobOf l m f) = backKey l m f.
Proof. unfold jobOf. destruct (vfSumRepo f); reflexivity. Qed.
Lemma key_split l m f : noSlash l -> exists rest, splitSlash (backKey l m f) = l :: repoBackup :: rest /\ joinSlash rest = repoName l m f.
Proof.
  intros H. unfold backKey, slashed at 1 2. rewrite split_noslash by exact H. rewrite split_noslash by (intros F; vm_compute in F; intuition discriminate). exists (splitSlash (repoName l m f)). split; [reflexivity | apply join_split].
Qed.
Definition resultBack (l : str) (m : vman) (f : vfile) (r : res vres) (b : vback) : vback :=
  setDone (if vresEqb (reason r) VOk then addValid b else addBad b (mkVbad (repoName l m f) (reason r))).
Definition upd (l : str) (m : vman) (f : vfile) (r : res vres) (b : vback) : vback := if strEqb (vkLabel b) l then resultBack l m f r b else b.
Lemma upd_label l m f r b : vkLabel (upd l m f r b) = vkLabel b.
Proof. unfold upd, resultBack. destruct (strEqb (vkLabel b) l); [| reflexivity]. destruct (vresEqb (reason r) VOk); reflexivity. Qed.
Lemma upd_gains l m f r B : gains B (map (upd l m f r) B).
Proof.
  intros p Hp Dp. exists (upd l m f r p). split; [now apply in_map|]. split; [apply upd_label|]. unfold upd, resultBack. destruct (strEqb (vkLabel p) l); [| split; [exact Dp | apply incl_refl]].
  destruct (vresEqb (reason r) VOk); cbn [setDone addValid addBad vkDone vkBad]; rewrite Dp; split; auto; [apply incl_refl | apply incl_appl, incl_refl].
Qed.
Lemma failed_reason r : failed r = negb (vresEqb (reason r) VOk).
Proof. destruct r as [[] | |]; reflexivity. Qed.
Lemma flat_map_snoc {A B} (g : A -> list B) l x : flat_map g (l ++ [x]) = flat_map g l ++ g x.
Proof. rewrite flat_map_app. cbn [flat_map]. now rewrite app_nil_r. Qed.
Lemma back_upd B DB RB l m f r b todo : backOk B DB RB b todo -> In (l, f) DB -> fst (fst (manOf l)) = Some m ->
  backOk (map (upd l m f r) B) DB (RB ++ [(l, f, r)]) (upd l m f r b) todo.
Proof.
  intros HB HD HM. apply (back_gains _ _ _ _ _ _ _ _ (upd_gains l m f r B)) in HB. revert HB. generalize (map (upd l m f r) B) as B'. intros B' HB. unfold VerifyProof4.backOk in *. rewrite upd_label.
  unfold upd. destruct (strEqb_spec (vkLabel b) l) as [E | N].
  - rewrite E in *. destruct (manOf l) as ((om, s), e) eqn:EM. cbn [fst] in HM. subst om.
    assert (NF : filter (ofLabel l) DB <> []). { intros F. assert (X : In (l, f) []) by (rewrite <- F; apply filter_In; split; [exact HD | apply strEqb_refl]). exact X. }
    destruct (vmFiles m) as [| f0 fs] eqn:EV; [destruct HB as [_ HB]; contradiction|]. rewrite <- EV in *. destruct HB as (hc & H1 & H2 & H3). exists hc. split; [exact H1|]. split; [| exact H3].
    destruct H2 as [m1 m2 m3 m4 m5 m6 m7]. unfold resultBack. pose proof (failed_reason r) as FR. rewrite E in *.
    assert (DN : vkDone b || (vkVerify b =? vkManifest b) = true -> length hc = length (vmFiles m)).
    { intros D. apply orb_true_iff in D. destruct D as [D | D]; [exact (m7 D)|]. apply Z.eqb_eq in D. lia. }
    destruct (vresEqb (reason r) VOk) eqn:ER; cbn [negb] in FR; constructor; cbn [setDone addValid addBad vkLabel vkStatus vkDone vkManifest vkVerify vkValid vkBad]; try assumption; try rewrite E.
    + rewrite filter_app. cbn [filter okOf]. rewrite strEqb_refl, FR. cbn [andb negb]. rewrite app_length, m4. cbn [length]. lia.
    + rewrite flat_map_snoc. cbn [badOf]. rewrite FR, andb_false_r, app_nil_r. exact m5.
    + rewrite filter_app. cbn [filter okOf]. rewrite strEqb_refl, FR. cbn [andb negb]. rewrite app_nil_r. exact m4.
    + rewrite flat_map_snoc. cbn [badOf]. rewrite strEqb_refl, FR. cbn [andb]. rewrite app_assoc. apply Permutation_app_tail. exact m5.
    + destruct (vkBad b); reflexivity.
  - destruct (manOf (vkLabel b)) as (([m0 |], s), e); [| exact HB]. destruct (vmFiles m0); [exact HB|]. destruct HB as (hc & H1 & [m1 m2 m3 m4 m5 m6 m7] & H3). exists hc. split; [exact H1|]. split; [| exact H3].
    assert (NL : strEqb l (vkLabel b) = false) by (apply strEqb_neq; congruence). constructor; try assumption.
    + rewrite filter_app. cbn [filter okOf]. rewrite NL. cbn [andb]. rewrite app_nil_r. exact m4.
    + rewrite flat_map_snoc. cbn [badOf]. rewrite NL. cbn [andb]. rewrite app_nil_r. exact m5.
Qed.
Lemma back_result d DB RB l m f r d' : IB d DB RB -> In (l, f) DB -> fst (fst (manOf l)) = Some m -> verifyResult (backKey l m f) r d = Ok d' ->
  IB d' DB (RB ++ [(l, f, r)]) /\ sameArch d d' /\ vdErrors d' = vdErrors d + errOf false r /\ manErrs d' = manErrs d /\ vdBackups d' = vdBackups d.
Proof.
  intros HI HD HM. destruct HI as [i1 i2 i3 i4].
  assert (LB : exists rest, map vkLabel (vdBack d) ++ rest = backs0).
  { destruct i4 as [(i4 & _) | (q & b & m0 & todo & r0 & K1 & K2 & K3 & _)]; [eauto|]. exists r0. rewrite K1, map_app, <- app_assoc. cbn [map app]. rewrite K2 in K3. exact K3. }
  destruct LB as (rest & LB). assert (ND : NoDup (map vkLabel (vdBack d))) by (apply (nodup_app_l _ rest); rewrite LB; exact Hbacks).
  pose proof (i2 _ HD) as HL. cbn [fst] in HL. assert (HLB : In l backs0) by (rewrite <- LB; apply in_or_app; now left).
  destruct (key_split l m f (Hslash l HLB)) as (rs & ES & EJ). unfold verifyResult. rewrite ES, EJ. replace (strEqb repoBackup repoArchive) with false by (vm_compute; reflexivity). rewrite strEqb_refl.
  destruct (existsb (fun b => strEqb (vkLabel b) l) (vdBack d)) eqn:EX; cbn [negb]; [| discriminate]. intros H. injection H as <-. fold (reason r).
  replace (updFirst _ _ (vdBack d)) with (map (upd l m f r) (vdBack d)).
  2:{ symmetry. rewrite updFirst_upd; [reflexivity | exact (nodup_map_inv _ _ ND) |]. intros x y Hx Hy Ex Ey. apply strEqb_eq in Ex, Ey. apply (nodup_map_eq vkLabel (vdBack d)); auto. congruence. }
  assert (ML : map vkLabel (map (upd l m f r) (vdBack d)) = map vkLabel (vdBack d)) by (rewrite map_map; apply map_ext; apply upd_label).
  split; [| split; [repeat split | split; [destruct r as [[] | |]; reflexivity | split; [unfold VerifyProof4.manErrs; cbn [vdBack]; now rewrite ML | reflexivity]]]].
  constructor; cbn [vdCurrent vdBack vdBackups vdMan].
  - exact i1.
  - intros x Hx. rewrite ML. exact (i2 x Hx).
  - intros x Hx. apply in_app_or in Hx. destruct Hx as [Hx | [<- | []]]; [exact (i3 x Hx) | exact HD].
  - destruct i4 as [(i4 & i5) | (q & b & m0 & todo & r0 & K1 & K2 & K3 & K4 & K5 & K6 & K7 & K10 & K8 & K9)]; [left | right].
    + split; [rewrite ML; exact i4|]. intros x Hx. apply in_map_iff in Hx. destruct Hx as (y & <- & Hy). exact (back_upd _ _ _ _ _ _ _ _ _ (i5 y Hy) HD HM).
    + exists (map (upd l m f r) q), (upd l m f r b), m0, todo, r0. rewrite upd_label. split; [rewrite K1, map_app; reflexivity|]. split; [exact K2|].
      split; [replace (map vkLabel (map (upd l m f r) q)) with (map vkLabel q) by (rewrite map_map; apply map_ext; intros a; now rewrite upd_label); exact K3|].
      split; [exact K4|]. split; [exact K5|]. split; [| split; [exact K7 | split; [exact K10 | split]]].
      * unfold upd. destruct (strEqb_spec (vkLabel b) l) as [E | N]; [| exact K6]. unfold VerifyProof4.backOk in K9. destruct (manOf (vkLabel b)) as ((om, s), e). cbn [fst] in K7. subst om. destruct (vmFiles m0) as [| f0 fs] eqn:EV; [now elim K10|]. rewrite <- EV in *.
        destruct K9 as (hc & H1 & [m1 m2 m3 m4 m5 m6 m7] & _). assert (LL : (length hc < length (vmFiles m0))%nat). { rewrite <- H1, app_length, map_length. destruct todo; [now elim K5 | cbn [length]; lia]. }
        unfold resultBack. destruct (vresEqb (reason r) VOk); cbn [setDone addValid addBad vkDone vkVerify vkManifest]; rewrite K6; cbn [orb]; apply Z.eqb_neq; lia.
      * intros x Hx. apply in_map_iff in Hx. destruct Hx as (y & <- & Hy). exact (back_upd _ _ _ _ _ _ _ _ _ (K8 y Hy) HD HM).
      * exact (back_upd _ _ _ _ _ _ _ _ _ K9 HD HM).
Qed.
End Back.
