(** Lemmas on finding the primary and a standby. *)
From Verif Require Import Base DbGetModel DbGetSpec.

Lemma nth_last {A} (l : list A) x i : nth_error (l ++ [x]) i = if (i =? length l)%nat then Some x else nth_error l i.
Proof.
  destruct (i =? length l)%nat eqn:E.
  - apply Nat.eqb_eq in E as ->. rewrite nth_error_app2 by lia. now rewrite Nat.sub_diag.
  - apply Nat.eqb_neq in E. destruct (Nat.lt_ge_cases i (length l)); [now rewrite nth_error_app1|]. rewrite nth_error_app2 by lia. replace (nth_error l i) with (@None A) by (symmetry; apply nth_error_None; lia).
    destruct (i - length l)%nat as [|k] eqn:K; [lia|]. cbn. now destruct k.
Qed.
Definition so (po : bool) (done : list (option bool)) (r : found) : Prop := primaryIs done (fPrimary r) /\ (if po then fStandby r = None else standbyIs done (fStandby r)).
Lemma none_of {A} (l : list A) : nth_error l (length l) = None. Proof. now apply nth_error_None. Qed.
Lemma primary_other done x p : x <> Some false -> primaryIs done p -> primaryIs (done ++ [x]) p.
Proof.
  intros N. assert (H : forall i, isPrimary (done ++ [x]) i <-> isPrimary done i).
  { intros i. unfold isPrimary. rewrite nth_last. destruct (i =? length done)%nat eqn:E; [|reflexivity]. apply Nat.eqb_eq in E as ->. rewrite none_of. split; [intros [= ->]; now destruct N|discriminate]. }
  destruct p as [i|]; cbn; intros P j; rewrite H; apply P.
Qed.
Lemma standby_other done x p : (x <> Some true \/ p <> None) -> standbyIs done p -> standbyIs (done ++ [x]) p.
Proof.
  intros N. unfold standbyIs, isStandby. destruct p as [i|].
  - intros (A & B). assert (L : (i < length done)%nat) by (apply nth_error_Some; congruence). split; [now rewrite nth_error_app1|]. intros j J. rewrite nth_error_app1 by lia. now apply B.
  - intros P j. rewrite nth_last. destruct (j =? length done)%nat; [|apply P]. destruct N as [N|N]; congruence.
Qed.
Lemma loop_spec po l : forall done r, so po done r -> match dbLoop po (length done) l r with
  | Ok r2 => so po (done ++ l) r2 | Err e => e = EOther /\ exists i j, i <> j /\ isPrimary (done ++ l) i /\ isPrimary (done ++ l) j | UB => False end.
Proof.
  induction l as [|x l IH]; intros done r (P & S); cbn [dbLoop]; [rewrite app_nil_r; now split|].
  assert (AS : done ++ x :: l = (done ++ [x]) ++ l) by (now rewrite <- app_assoc). rewrite AS. assert (LN : Datatypes.S (length done) = length (done ++ [x])) by (rewrite app_length; cbn; lia).
  destruct x as [[|]|].
  - rewrite LN. apply IH. split; [destruct (_ && _); apply primary_other; cbn; congruence || assumption|]. destruct po.
    + rewrite andb_false_r. assumption.
    + rewrite andb_true_r. destruct (fStandby r) as [s|] eqn:FS; [rewrite FS; apply standby_other; [right; discriminate|assumption]|]. cbn [fStandby standbyIs]. unfold isStandby. split; [rewrite nth_last; now rewrite Nat.eqb_refl|].
      intros j J. rewrite nth_error_app1 by assumption. apply S.
  - destruct (fPrimary r) as [p|] eqn:FP.
    + split; [reflexivity|]. assert (PP : isPrimary done p) by now apply P. unfold isPrimary in *. assert (L : (p < length done)%nat) by (apply nth_error_Some; congruence). exists p, (length done). split; [lia|]. rewrite <- app_assoc. split; [now rewrite nth_error_app1|]. rewrite nth_error_app2 by lia. now rewrite Nat.sub_diag.
    + rewrite LN. apply IH. split; cbn [fPrimary fStandby].
      * intros j. unfold isPrimary. rewrite nth_last. destruct (j =? length done)%nat eqn:E; [apply Nat.eqb_eq in E; now split|]. apply Nat.eqb_neq in E. split; [intros H; now destruct (P j)|congruence].
      * destruct po; [assumption|]. apply standby_other; [left; discriminate|assumption].
  - rewrite LN. apply IH. split; [apply primary_other; [discriminate|assumption]|]. destruct po; [assumption|]. apply standby_other; [left; discriminate|assumption].
Qed.
Lemma so_det po l a b : so po l a -> so po l b -> a = b.
Proof.
  destruct a as [p s], b as [p2 s2]. intros (P & S) (P2 & S2). cbn [fPrimary fStandby] in *. assert (p = p2).
  { destruct p as [p|], p2 as [p2|]; [f_equal; apply P2; now apply P|destruct (P2 p); now apply P|destruct (P p2); now apply P2|reflexivity]. }
  assert (s = s2); [|congruence]. destruct po; [congruence|]. destruct s as [s|], s2 as [s2|]; cbn in S, S2; [|destruct (S2 s); apply S|destruct (S s2); apply S2|reflexivity].
  destruct S as (A & B), S2 as (A2 & B2). destruct (Nat.lt_total s s2) as [L|[->|L]]; [destruct (B2 _ L A)|reflexivity|destruct (B _ L A2)].
Qed.
