From Verif Require Import Base Str JobModel JobSpec.
From Coq Require Import Sorting.Sorted Sorting.Permutation.
Open Scope Z_scope.

(** * Scan of the queues *)
Section Scan.
  Context {J : Type}.
  Variable take : list mfile -> option (J * list mfile).
  Hypothesis take_none : forall q, take q = None <-> q = [].
  Variables client total offset : Z.
  Variable start : Z.
  Hypothesis Htotal : 0 < total.
  Hypothesis Hstart : 0 <= start < total.
  Hypothesis Hoff : 0 <= offset.
  (* the k-th queue looked at *)
  Definition at_ (k : Z) : Z :=
    if client mod 2 =? 0 then (if start + k <? total then start + k else start + k - total) else (if 0 <=? start - k then start - k else start - k + total).
  Lemma at_next k : 0 <= k < total -> jobQueueNext client (at_ k) total = (if k + 1 =? total then start else at_ (k + 1)).
  Proof.
    unfold jobQueueNext, at_. intros H. destruct (client mod 2 =? 0); cbv zeta.
    - destruct (Z.ltb_spec (start + k) total); destruct (Z.ltb_spec (start + (k + 1)) total); destruct (Z.eqb_spec (k + 1) total);
        repeat match goal with |- context [if ?b then _ else _] => destruct b eqn:? end; lia.
    - destruct (Z.leb_spec 0 (start - k)); destruct (Z.leb_spec 0 (start - (k + 1))); destruct (Z.eqb_spec (k + 1) total);
        repeat match goal with |- context [if ?b then _ else _] => destruct b eqn:? end; lia.
  Qed.
  Lemma at_range k : 0 <= k < total -> 0 <= at_ k < total.
  Proof. unfold at_. intros H. destruct (client mod 2 =? 0); match goal with |- context [if ?b then _ else _] => destruct b eqn:? end; lia. Qed.
  Lemma at_inj k : 0 < k < total -> at_ k <> start.
  Proof. unfold at_. intros H. destruct (client mod 2 =? 0); match goal with |- context [if ?b then _ else _] => destruct b eqn:? end; lia. Qed.
  Lemma at_surj i : 0 <= i < total -> exists k, 0 <= k < total /\ at_ k = i.
  Proof.
    unfold at_. intros H. destruct (client mod 2 =? 0).
    - destruct (Z_le_gt_dec start i); [exists (i - start)|exists (i - start + total)]; (split; [lia|]); match goal with |- context [if ?b then _ else _] => destruct b eqn:? end; lia.
    - destruct (Z_le_gt_dec i start); [exists (start - i)|exists (start - i + total)]; (split; [lia|]); match goal with |- context [if ?b then _ else _] => destruct b eqn:? end; lia.
  Qed.
  Definition qnth (queues : list (list mfile)) (i : Z) := nth_error queues (Z.to_nat (i + offset)).
  Lemma scan_spec queues fuel : total + offset <= Z.of_nat (length queues) -> forall k, 0 <= k < total -> total - k <= Z.of_nat fuel ->
    (forall j, 0 <= j < k -> qnth queues (at_ j) = Some []) ->
    (exists i q j q', 0 <= i < total /\ qnth queues i = Some q /\ take q = Some (j, q') /\
       jobScan take false client total offset start fuel (at_ k) queues = Ok (Some j, queueSet queues (Z.to_nat (i + offset)) q')) \/
    ((forall i, 0 <= i < total -> qnth queues i = Some []) /\ jobScan take false client total offset start fuel (at_ k) queues = Ok (None, queues)).
  Proof.
    intros Hlen. induction fuel as [|fuel IH]; intros k Hk Hf Hj; [lia|]. cbn [jobScan]. pose proof (at_range k Hk) as Hr.
    fold (qnth queues (at_ k)). destruct (qnth queues (at_ k)) as [q|] eqn:Eq.
    2:{ exfalso. unfold qnth in Eq. apply nth_error_None in Eq. lia. }
    destruct (take q) as [[j q']|] eqn:Et.
    - left. exists (at_ k), q, j, q'. auto.
    - apply take_none in Et. subst q. rewrite at_next by exact Hk. destruct (Z.eqb_spec (k + 1) total) as [E|E].
      + right. rewrite Z.eqb_refl. split; [|reflexivity]. intros i Hi. destruct (at_surj i Hi) as (m & Hm & <-). destruct (Z.eq_dec m k) as [-> |]; [exact Eq|]. apply Hj. lia.
      + destruct (Z.eqb_spec (at_ (k + 1)) start) as [E2|E2]; [exfalso; apply (at_inj (k + 1)); [lia|exact E2]|]. apply IH; [lia|lia|].
        intros j Hj'. destruct (Z.eq_dec j k) as [-> |]; [exact Eq|]. apply Hj. lia.
  Qed.
End Scan.
Lemma at_0 client total start : 0 <= start < total -> at_ client total start 0 = start.
Proof. unfold at_. intros H. destruct (client mod 2 =? 0); match goal with |- context [if ?b then _ else _] => destruct b eqn:? end; lia. Qed.

(** Replacing one queue *)
Lemma queueSet_perm queues i q l q' : nth_error queues i = Some q -> Permutation q (l ++ q') -> Permutation (concat queues) (l ++ concat (queueSet queues i q')).
Proof.
  intros E P. apply nth_error_split in E as (a & b & -> & <-). unfold queueSet. rewrite firstn_app, firstn_all, Nat.sub_diag, app_nil_r.
  rewrite skipn_app, skipn_all2 by lia. replace (S (length a) - length a)%nat with 1%nat by lia. cbn [skipn app firstn]. rewrite !concat_app. cbn [concat].
  rewrite P. repeat rewrite <- app_assoc. rewrite app_assoc, (Permutation_app_comm (concat a) l). repeat rewrite <- app_assoc. reflexivity.
Qed.
Lemma queueSet_length queues i q : (i < length queues)%nat -> length (queueSet queues i q) = length queues.
Proof. intros H. unfold queueSet. rewrite app_length, firstn_length. cbn [length]. rewrite skipn_length. lia. Qed.
Lemma queueSet_nth queues i q j : (i < length queues)%nat -> nth_error (queueSet queues i q) j = if (j =? i)%nat then Some q else nth_error queues j.
Proof.
  intros H. unfold queueSet. destruct (Nat.eqb_spec j i) as [-> |N].
  - rewrite nth_error_app2 by (rewrite firstn_length; lia). rewrite firstn_length, Nat.min_l by lia. now rewrite Nat.sub_diag.
  - destruct (Nat.lt_ge_cases j i).
    + rewrite nth_error_app1 by (rewrite firstn_length; lia). rewrite <- (firstn_skipn i queues) at 2. rewrite nth_error_app1 by (rewrite firstn_length; lia). reflexivity.
    + rewrite nth_error_app2 by (rewrite firstn_length; lia). rewrite firstn_length, Nat.min_l by lia. replace (j - i)%nat with (S (j - i - 1)) by lia. cbn [nth_error].
      rewrite <- (firstn_skipn (S i) queues) at 2. rewrite nth_error_app2 by (rewrite firstn_length; lia). rewrite firstn_length, Nat.min_l by lia. f_equal. lia.
Qed.
Lemma concat_nil {A} (l : list (list A)) : (forall i q, nth_error l i = Some q -> q = []) -> concat l = [].
Proof. induction l as [|q l IH]; intros H; [reflexivity|]. cbn. rewrite (H 0%nat q eq_refl). apply IH. intros i r E. exact (H (S i) r E). Qed.

(** * What is taken from a queue *)
Lemma backupTake_split c queue : forall bundle started size b l r, backupTake c bundle started size queue = (b, l, r) -> queue = l ++ r /\ (queue <> [] -> l <> []).
Proof.
  induction queue as [|f q IH]; intros bundle started size b l r E; cbn [backupTake] in E; [injection E as <- <- <-; auto|].
  destruct (_ || _); [injection E as <- <- <-; split; [reflexivity|discriminate]|].
  destruct (backupTake c _ true _ q) as [[b' l'] r'] eqn:E'. injection E as <- <- <-. apply IH in E' as [-> _]. split; [reflexivity|discriminate].
Qed.
Lemma backupTakeJob_none c q : backupTakeJob c q = None <-> q = [].
Proof.
  unfold backupTakeJob. destruct (backupTake c (jcBundle c) false 0 q) as [[b l] r] eqn:E. split.
  - apply backupTake_split in E as [_ H]. destruct l; [|discriminate]. intros _. destruct q; [reflexivity|]. exfalso. apply H; [discriminate|reflexivity].
  - intros ->. cbn in E. injection E as <- <- <-. reflexivity.
Qed.
Lemma backupTakeJob_split c q b l r : backupTakeJob c q = Some (b, l, r) -> q = l ++ r /\ l <> [].
Proof.
  unfold backupTakeJob. destruct (backupTake c (jcBundle c) false 0 q) as [[b' l'] r'] eqn:E. destruct l' as [|f l']; [discriminate|]. intros H. injection H as <- <- <-.
  apply backupTake_split in E as [E _]. split; [exact E|discriminate].
Qed.
Lemma takeMore_split bid ref q : forall l r, restoreTakeMore bid ref q = (l, r) ->
  q = l ++ r /\ Forall (fun f => mfBundleId f = bid /\ mfReference f = ref) l /\ match r with [] => True | f :: _ => ~ (mfBundleId f = bid /\ mfReference f = ref) end.
Proof.
  assert (Er : forall a b, referenceEqb a b = true <-> a = b).
  { intros [a|] [b|]; cbn; split; try discriminate; try reflexivity; intros E; [apply strEqb_eq in E; now subst|injection E as ->; apply strEqb_refl]. }
  induction q as [|f q IH]; intros l r E; cbn [restoreTakeMore] in E; [injection E as <- <-; auto|].
  destruct (negb (bid =? mfBundleId f) || negb (referenceEqb ref (mfReference f))) eqn:Eb.
  - injection E as <- <-. split; [reflexivity|]. split; [constructor|]. intros [E1 E2]. subst. rewrite Z.eqb_refl in Eb. cbn in Eb. rewrite (proj2 (Er _ _) eq_refl) in Eb. discriminate.
  - apply orb_false_iff in Eb as [E1 E2]. apply negb_false_iff in E1, E2. apply Z.eqb_eq in E1. apply Er in E2. destruct (restoreTakeMore bid ref q) as [l' r'] eqn:E'. injection E as <- <-.
    destruct (IH _ _ eq_refl) as (-> & I2 & I3). split; [reflexivity|]. split; [constructor; auto|exact I3].
Qed.
Lemma restoreTake_none q : restoreTake q = None <-> q = [].
Proof. destruct q as [|f q]; cbn; [tauto|]. destruct (mfBundleId f =? 0); [split; discriminate|]. destruct (restoreTakeMore _ _ q). split; discriminate. Qed.
Lemma restoreTake_split q k l r : restoreTake q = Some (k, l, r) -> q = l ++ r /\ l <> [] /\
  (if k =? 0 then length l = 1%nat else exists ref, Forall (fun f => mfBundleId f = k /\ mfReference f = ref) l /\ match r with [] => True | f :: _ => ~ (mfBundleId f = k /\ mfReference f = ref) end) /\
  Forall (fun f => mfBundleId f = k) l.
Proof.
  destruct q as [|f q]; cbn; [discriminate|]. destruct (Z.eqb_spec (mfBundleId f) 0) as [E0|E0].
  - intros E. injection E as <- <- <-. cbn. split; [reflexivity|]. split; [discriminate|]. split; [reflexivity|]. constructor; [exact E0|constructor].
  - destruct (restoreTakeMore _ _ q) as [l' r'] eqn:E'. intros E. injection E as <- <- <-. apply takeMore_split in E' as (-> & H1 & H2). split; [reflexivity|]. split; [discriminate|].
    destruct (Z.eqb_spec (mfBundleId f) 0); [congruence|]. split; [exists (mfReference f); split; [constructor; auto|exact H2]|]. constructor; [reflexivity|]. eapply Forall_impl; [|exact H1]. now intros a [? _].
Qed.
