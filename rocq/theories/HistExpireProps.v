(** Property C23: expiration of backup history manifests. *)
From Verif Require Import Base Str ExpireModel ExpireSpec ExpireProof HistExpireModel HistExpireSpec HistExpireProof.
Open Scope Z_scope.

(** C23.  Exactly which files of the repository acted on stay, for any repository that is inspected. *)
Theorem C23_history_exact : forall min current listed acted y f,
  inHistory (histApply (removeExpiredHistory (Some min) current listed) acted) y f <->
  inHistory acted y f /\
  ~ (exists d, In d listed /\ hyName d = y /\ isYear y = true /\
      (slt y (firstn 4 min) \/ (y = firstn 4 min /\ exists lab, aLabel lab /\ f = histFile lab /\ In f (hyFiles d) /\ ~ In lab current /\ slt lab min))).
Proof. exact history_exact. Qed.
Print Assumptions C23_history_exact.

(** C23.  When the repository inspected is the one acted on, the manifest of a label is removed exactly when the label precedes the
    threshold and it is not a current backup or its year precedes the year of the threshold. *)
Theorem C23_same_repo : forall min current h lab, aLabel lab -> isYear (firstn 4 lab) = true -> keptIn h lab ->
  (keptIn (histApply (removeExpiredHistory (Some min) current h) h) lab <->
   ~ (slt lab min /\ (slt (firstn 4 lab) (firstn 4 min) \/ ~ In lab current))).
Proof.
  intros min current h lab Hl Hy Hk. unfold keptIn. rewrite history_exact. split.
  - intros [_ H] [Hlt Ho]. apply H. destruct Hk as (d & Hd & E & Hf). exists d. split; [exact Hd|]. split; [exact E|]. split; [exact Hy|].
    destruct Ho as [Ho|Ho]; [now left|]. pose proof (prefix_mono 4 _ _ (slt_le _ _ Hlt)) as Hle. apply sle_lt_eq in Hle.
    destruct Hle as [Hle|Hle]; [now left|]. right. split; [exact Hle|]. exists lab. auto.
  - intros H. split; [exact Hk|]. intros (d & Hd & E & _ & [L|(E2 & lab' & Hl' & Ef & _ & Hc & Hlt)]).
    + apply H. split; [now apply (prefix_slt 4)|now left].
    + apply app_inv_tail in Ef. subst lab'. apply H. auto.
Qed.
Print Assumptions C23_same_repo.

(** C23.  Whatever repository is inspected, a manifest newer than the threshold is never removed, and one of a current backup only with
    the whole year before the threshold's. *)
Theorem C23_not_too_much : forall min current listed acted lab, aLabel lab -> keptIn acted lab ->
  ~ keptIn (histApply (removeExpiredHistory (Some min) current listed) acted) lab ->
  slt lab min /\ (slt (firstn 4 lab) (firstn 4 min) \/ ~ In lab current).
Proof.
  intros min current listed acted lab Hl Hk Hn.
  assert (Hcase : slt (firstn 4 lab) (firstn 4 min) \/ (firstn 4 lab = firstn 4 min /\ slt lab min /\ ~ In lab current) \/
                  ~ (slt (firstn 4 lab) (firstn 4 min) \/ (firstn 4 lab = firstn 4 min /\ slt lab min /\ ~ In lab current))).
  { destruct (strLtb_spec (firstn 4 lab) (firstn 4 min)); [tauto|]. destruct (strEqb_spec (firstn 4 lab) (firstn 4 min)); [|tauto].
    destruct (strLtb_spec lab min); [|tauto]. destruct (strLstExists current lab) eqn:Ex.
    - apply strLstExists_in in Ex. tauto.
    - right. left. split; [assumption|]. split; [assumption|]. intros Hi. apply strLstExists_in in Hi. congruence. }
  destruct Hcase as [H|[(H1 & H2 & H3)|H]]; [split; [now apply (prefix_slt 4)|now left]|tauto|].
  exfalso. apply Hn. apply history_exact. split; [exact Hk|]. intros (d & Hd & E & _ & [L|(E2 & lab' & Hl' & Ef & _ & Hc & Hlt)]); [tauto|].
  apply app_inv_tail in Ef. subst lab'. tauto.
Qed.
Print Assumptions C23_not_too_much.

(** C23.  Without repo-retention-history nothing is removed. *)
Theorem C23_unset : forall current listed acted, histApply (removeExpiredHistory None current listed) acted = acted.
Proof. reflexivity. Qed.
Print Assumptions C23_unset.

(** C23.  The claim fails when the repository inspected is not the one acted on: an expired manifest stays. *)
Definition hxL (y : Z) : str := [50;48;50;48+y;48;49;48;49;45;48;48;48;48;48;48;70].
Theorem C23_inspected_repo_refuted : exists min listed acted lab, aLabel lab /\ isYear (firstn 4 lab) = true /\
  keptIn acted lab /\ slt (firstn 4 lab) (firstn 4 min) /\ keptIn (histApply (removeExpiredHistory (Some min) [] listed) acted) lab.
Proof.
  exists (hxL 3), [], [mkHistYear (firstn 4 (hxL 1)) [histFile (hxL 1)]], (hxL 1). split; [now left|]. split; [reflexivity|].
  split; [eexists; split; [now left|]; split; [reflexivity|now left]|]. split; [reflexivity|].
  eexists; split; [now left|]; split; [reflexivity|now left].
Qed.
Print Assumptions C23_inspected_repo_refuted.

(** C23.  "Keep backup history manifests for unexpired backups" (expire.c:999) does not hold for years before the threshold's. *)
Theorem C23_current_kept_refuted : exists min current h lab, aLabel lab /\ In lab current /\ keptIn h lab /\
  ~ keptIn (histApply (removeExpiredHistory (Some min) current h) h) lab.
Proof.
  exists (hxL 3), [hxL 1], [mkHistYear (firstn 4 (hxL 1)) [histFile (hxL 1)]], (hxL 1). split; [now left|]. split; [now left|].
  split; [eexists; split; [now left|]; split; [reflexivity|now left]|]. intros (y & [] & _).
Qed.
Print Assumptions C23_current_kept_refuted.

Example C23_nontrivial :
  let h := [mkHistYear (firstn 4 (hxL 1)) [histFile (hxL 1)]; mkHistYear (firstn 4 (hxL 3)) [histFile (hxL 3); histFile (firstn 15 (hxL 3) ++ [70;95] ++ firstn 15 (hxL 3) ++ [68])]] in
  keptIn h (hxL 3) /\ aLabel (hxL 3) /\ isYear (firstn 4 (hxL 3)) = true /\
  removeExpiredHistory (Some (firstn 7 (hxL 3) ++ [50;45;48;48;48;48;48;48;70])) [hxL 3] h =
    [HRmYear (firstn 4 (hxL 1)); HRmFile (firstn 4 (hxL 3)) (histFile (firstn 15 (hxL 3) ++ [70;95] ++ firstn 15 (hxL 3) ++ [68]))].
Proof.
  cbn zeta. split; [eexists; split; [right; now left|]; split; [reflexivity|now left]|]. split; [now left|]. split; [reflexivity|]. vm_compute. reflexivity.
Qed.

(** C23.  The directories considered are exactly those named by a year from 2000 to 2999. *)
Theorem C23_year_names : forall s, isYear s = true <->
  exists a b c, s = [50; a; b; c] /\ 48 <= a <= 57 /\ 48 <= b <= 57 /\ 48 <= c <= 57.
Proof.
  intros s. unfold isYear. split.
  - intros H. destruct s as [|x [|a [|b [|c [|]]]]]; try discriminate H. cbn [length firstn Nat.eqb forallb] in H. unfold isDigit in H.
    destruct (strEqb_spec [x] [50]) as [E|E]; [|discriminate H]. injection E as ->. exists a, b, c. split; [reflexivity|]. cbn [andb] in H. lia.
  - intros (a & b & c & -> & Ha & Hb & Hc). cbn [length firstn Nat.eqb forallb]. unfold isDigit. cbn. lia.
Qed.
Print Assumptions C23_year_names.
