From Verif Require Import Base Str NumModel SpoolModel RegNameModel SelectSpec SelectProof SelectProof2 ControlModel ControlSpec.
From Coq Require Import String List.
Open Scope Z_scope. Open Scope list_scope.

Lemma exists_in l x : strLstExists l x = true <-> In x l.
Proof.
  unfold strLstExists. rewrite existsb_exists. split; [intros (y & I & E); apply strEqb_eq in E; now subst|intros I; exists x; split; [exact I|apply strEqb_refl]].
Qed.
Lemma exists_dec l x : strLstExists l x = true /\ In x l \/ strLstExists l x = false /\ ~ In x l.
Proof. destruct (strLstExists l x) eqn:E; [left|right]; (split; [reflexivity|]); [now apply exists_in|]. intros I. apply exists_in in I. congruence. Qed.
Lemma begun_iff a p : strBeginsWith a p = true <-> begun a p.
Proof.
  unfold strBeginsWith, begun. split.
  - intros H. apply strEqb_eq in H. exists (skipn (List.length p) a). rewrite <- H at 1. rewrite firstn_skipn. reflexivity.
  - intros (e & ->). rewrite firstn_app, Nat.sub_diag, firstn_all, firstn_O, app_nil_r. apply strEqb_refl.
Qed.
Lemma ended_iff a e : strEndsWith a e = true <-> ended a e.
Proof.
  unfold strEndsWith, ended. split.
  - intros H. apply andb_prop in H as (_ & H). apply strEqb_eq in H. exists (firstn (List.length a - List.length e) a). rewrite <- H at 2. now rewrite firstn_skipn.
  - intros (p & ->). rewrite app_length. apply andb_true_intro. split; [apply Nat.leb_le; lia|]. replace (List.length p + List.length e - List.length e)%nat with (List.length p) by lia.
    rewrite skipn_app, skipn_all, Nat.sub_diag. apply strEqb_refl.
Qed.
Lemma selected_iff st f : selected st f = true <-> ended f (txt ".lock") /\ forall s, st = Some s -> begun f (s ++ txt "-").
Proof.
  unfold selected. rewrite andb_true_iff. change extLock with (txt ".lock"). rewrite ended_iff. destruct st as [s|].
  - rewrite begun_iff. split; intros (A & B); (split; [exact A|]); [intros s' E; injection E as <-; exact B|now apply B].
  - split; intros (A & B); (split; [exact A|]); [discriminate|reflexivity].
Qed.
Lemma remove_in f d x : In x (removeF f d) <-> In x d /\ x <> f.
Proof.
  unfold removeF. rewrite filter_In, negb_true_iff. split; intros (A & B); (split; [exact A|]).
  - intros ->. rewrite strEqb_refl in B. discriminate.
  - destruct (strEqb x f) eqn:E; [apply strEqb_eq in E; congruence|reflexivity].
Qed.

Lemma loop_spec st lock files : forall d p d' p', stopLoop st lock files d p = (d', p') ->
  (forall x, In x d' <-> In x d /\ ~ (In x files /\ selected st x = true /\ lock x <> LSMissing)) /\
  (forall n, In n p' <-> In n p \/ exists f, In f files /\ selected st f = true /\ lock f = LSValid n) /\
  (NoDup p -> NoDup p').
Proof.
  induction files as [|f r IH]; intros d p d' p' H; cbn [stopLoop] in H.
  - injection H as <- <-. split; [|split; [|auto]].
    + intros x. split; [intros I; split; [exact I|intros ([] & _)]|now intros (I & _)].
    + intros n. split; [now left|intros [I|(f & [] & _)]; exact I].
  - assert (SEL : selected st f = false -> stopLoop st lock r d p = (d', p') ->
       (forall x, In x d' <-> In x d /\ ~ (In x (f :: r) /\ selected st x = true /\ lock x <> LSMissing)) /\
       (forall n, In n p' <-> In n p \/ exists g, In g (f :: r) /\ selected st g = true /\ lock g = LSValid n) /\ (NoDup p -> NoDup p')).
    { intros S H'. destruct (IH _ _ _ _ H') as (A & B & C). split; [|split; [|exact C]].
      - intros x. rewrite A. split; intros (I & N); (split; [exact I|]).
        + intros ([->|I2] & S2 & L); [congruence|]. now apply N.
        + intros (I2 & S2 & L). apply N. split; [now right|auto].
      - intros n. rewrite B. split; intros [I|(g & I & S2 & L)]; try (now left); right; exists g.
        + split; [now right|auto].
        + destruct I as [->|I]; [congruence|auto]. }
    destruct (selected st f) eqn:S; cbn [negb] in H; [clear SEL|now apply SEL].
    set (d1 := match lock f with LSMissing => d | _ => removeF f d end) in H.
    assert (D1 : forall x, In x d1 <-> In x d /\ ~ (x = f /\ lock f <> LSMissing)).
    { intros x. unfold d1. destruct (lock f); rewrite ?remove_in; split; intros K; try (destruct K as (K1 & K2)); try (split; [assumption|]); try assumption;
        try (intros (-> & L); congruence); try (intros ->; apply K2; split; [reflexivity|discriminate]). }
    assert (DD : forall q, (forall x, In x d' <-> In x d1 /\ ~ (In x r /\ selected st x = true /\ lock x <> LSMissing)) ->
       q = p' -> forall x, In x d' <-> In x d /\ ~ (In x (f :: r) /\ selected st x = true /\ lock x <> LSMissing)).
    { intros q A _ x. rewrite A, D1. split.
      - intros ((I & N1) & N2). split; [exact I|]. intros ([->|I2] & S2 & L); [now apply N1|now apply N2].
      - intros (I & N). split; [split; [exact I|]|].
        + intros (-> & L). apply N. split; [now left|auto].
        + intros (I2 & S2 & L). apply N. split; [now right|auto]. }
    clearbody d1.
    assert (P : forall m, (forall n, In n p' <-> In n m \/ exists g, In g r /\ selected st g = true /\ lock g = LSValid n) ->
       (forall n, In n m <-> In n p \/ lock f = LSValid n) -> forall n, In n p' <-> In n p \/ exists g, In g (f :: r) /\ selected st g = true /\ lock g = LSValid n).
    { intros m A B n. rewrite A, B. split.
      - intros [[I|L]|(g & I & S2 & L)]; [now left|right; exists f; split; [now left|auto]|right; exists g; split; [now right|auto]].
      - intros [I|(g & [<-|I] & S2 & L)]; [left; now left|left; now right|right; exists g; auto]. }
    destruct (lock f) as [| | |pid] eqn:L.
    1-3: destruct (IH _ _ _ _ H) as (A & B & C); split; [apply (DD p' A eq_refl)|split; [apply (P p B); intros n; split; [now left|intros [I|K]; [exact I|discriminate]]|exact C]].
    destruct (existsb (Z.eqb pid) p) eqn:E.
    + apply existsb_exists in E as (y & I & E). apply Z.eqb_eq in E. subst y. destruct (IH _ _ _ _ H) as (A & B & C).
      split; [apply (DD p' A eq_refl)|split; [apply (P p B); intros n; split; [now left|intros [K|K]; [exact K|injection K as <-; exact I]]|exact C]].
    + assert (N : ~ In pid p) by (intros I; assert (existsb (Z.eqb pid) p = true) by (apply existsb_exists; exists pid; split; [exact I|apply Z.eqb_refl]); congruence).
      destruct (IH _ _ _ _ H) as (A & B & C).
      split; [apply (DD p' A eq_refl)|split; [apply (P (p ++ [pid]) B)|]].
      * intros n. rewrite in_app_iff. cbn. split; [intros [K|[->|[]]]; auto|intros [K|K]; [now left|right; left; congruence]].
      * intros ND. apply C. rewrite <- (rev_involutive (p ++ [pid])), rev_app_distr. apply NoDup_rev. cbn. constructor; [now rewrite <- in_rev|now apply NoDup_rev].
Qed.

(** * Names *)
Lemma stop_name s : lockStopFileName (Some s) = s ++ txt ".stop". Proof. reflexivity. Qed.
Lemma stop_all : lockStopFileName None = txt "all.stop". Proof. reflexivity. Qed.
Lemma stop_inj s t : s ++ txt ".stop" = t ++ txt ".stop" -> s = t.
Proof. apply app_inv_tail. Qed.
Lemma stop_not_lock s st : selected st (s ++ txt ".stop") = false.
Proof.
  destruct (selected st _) eqn:E; [|reflexivity]. apply selected_iff in E as ((p & E) & _). apply (f_equal (@rev Z)) in E. rewrite !rev_app_distr in E. cbn in E. discriminate.
Qed.
Lemma test_spec st d : lockStopTest st d = Err EOther /\ stopped st d \/ lockStopTest st d = Ok tt /\ ~ stopped st d.
Proof.
  unfold lockStopTest, stopped. rewrite stop_all. destruct st as [s|].
  - rewrite stop_name. destruct (exists_dec d (s ++ txt ".stop")) as [(-> & I)|(-> & I)]; cbn [bind].
    + left. split; [reflexivity|]. right. eauto.
    + destruct (exists_dec d (txt "all.stop")) as [(-> & J)|(-> & J)]; [left; auto|right]. split; [reflexivity|]. intros [K|(s' & E & K)]; [auto|]. injection E as <-. auto.
  - cbn [bind]. destruct (exists_dec d (txt "all.stop")) as [(-> & J)|(-> & J)]; [left; auto|right]. split; [reflexivity|]. intros [K|(s' & E & K)]; [auto|discriminate].
Qed.
Lemma cut_dash (x : str) : forall y a b, ~ In 45 a -> ~ In 45 b -> x ++ 45 :: a = y ++ 45 :: b -> x = y /\ a = b.
Proof.
  induction x as [|c x IH]; intros [|e y] a b NA NB H; cbn in H.
  - injection H as ->. auto.
  - injection H as <- ->. exfalso. apply NA, in_or_app. right. now left.
  - injection H as -> <-. exfalso. apply NB, in_or_app. right. now left.
  - injection H as -> H. destruct (IH y a b NA NB H) as (-> & ->). auto.
Qed.
Lemma type_dash t : ~ In 45 (lockTypeName t).
Proof. destruct t; cbn; intuition discriminate. Qed.
Lemma key_dash k : 0 <= k < 2 ^ 32 -> ~ In 45 (cvtUIntToZ k ++ extLock).
Proof.
  intros K I. apply in_app_or in I as [I|I].
  - destruct (uint_id k K) as (_ & D). specialize (D 45 I). lia.
  - cbn in I. intuition discriminate.
Qed.
Lemma type_inj t u : lockTypeName t = lockTypeName u -> t = u.
Proof. destruct t, u; intros H; first [reflexivity|discriminate H]. Qed.
Lemma name_inj s t k s' t' k' : 0 <= k < 2 ^ 32 -> 0 <= k' < 2 ^ 32 -> cmdLockFileName s t k = cmdLockFileName s' t' k' -> s = s' /\ t = t' /\ k = k'.
Proof.
  intros K K' H. unfold cmdLockFileName in H. change (txt "-") with [45] in H. cbn [app] in H.
  assert (E : forall (a : str) n m, a ++ 45 :: n ++ 45 :: m = (a ++ 45 :: n) ++ 45 :: m) by (intros; rewrite <- app_assoc; reflexivity).
  rewrite (E s), (E s') in H. apply cut_dash in H as (H & X); [|now apply key_dash|now apply key_dash].
  apply cut_dash in H as (-> & T); [|apply type_dash|apply type_dash]. apply type_inj in T. apply app_inv_tail in X. apply uint_inj in X; auto.
Qed.
Lemma lock_selected s f st : lockOf s f -> (st = Some s \/ st = None) -> selected st f = true.
Proof.
  intros (t & k & _ & ->) S. apply selected_iff. unfold cmdLockFileName. split.
  - exists (s ++ txt "-" ++ lockTypeName t ++ txt "-" ++ cvtUIntToZ k). rewrite <- !app_assoc. reflexivity.
  - intros s' E. destruct S as [->| ->]; [|discriminate]. injection E as ->. exists (lockTypeName t ++ txt "-" ++ cvtUIntToZ k ++ extLock). rewrite <- !app_assoc. reflexivity.
Qed.
Lemma prefix_split (x : str) : forall y a b, x ++ 45 :: a = y ++ 45 :: b -> x = y \/ begun y (x ++ [45]) \/ begun x (y ++ [45]).
Proof.
  induction x as [|c x IH]; intros [|e y] a b H; cbn in H; auto.
  - injection H as <- ->. right. left. exists y. reflexivity.
  - injection H as -> <-. right. right. exists x. reflexivity.
  - injection H as -> H. destruct (IH _ _ _ H) as [->|[(z & ->)|(z & ->)]]; [auto|right; left; exists z; reflexivity|right; right; exists z; reflexivity].
Qed.
Lemma lock_apart s t f : lockOf t f -> selected (Some s) f = true -> s = t \/ ~ apart s t.
Proof.
  intros (ty & k & K & ->) S. apply selected_iff in S as (_ & S). destruct (S s eq_refl) as (e & E). unfold cmdLockFileName in E. rewrite <- app_assoc in E. change (txt "-") with [45] in E. cbn [app] in E.
  apply prefix_split in E as [E|[E|E]]; [left; congruence| |]; right; intros (A & B); [apply B|apply A]; exact E.
Qed.
