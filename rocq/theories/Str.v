(** Strings as the code compares, cuts and sorts them.

    Models src/common/type/string.c: strCmp (strcmp on the bytes), strEq, strSubN, strBeginsWith and
    src/common/type/stringList.c: strLstExists, strLstSort; src/common/type/list.c:431-455 lstSort.
    A string is the list of its (non-NUL) bytes.  [qsort] is modelled by insertion sort: the lists sorted by the modelled code
    never hold two different elements that compare equal, so every sorting algorithm gives the same result. *)
From Verif Require Import Base.
From Coq Require Import Permutation Sorted.
Open Scope Z_scope.

Definition str := list Z.

(** string.c strCmp -> strcmp(3): byte-wise, a proper prefix is smaller. *)
Fixpoint strCmp (a b : str) : comparison :=
  match a, b with
  | [], [] => Eq
  | [], _ :: _ => Lt
  | _ :: _, [] => Gt
  | x :: a', y :: b' => match x ?= y with Eq => strCmp a' b' | c => c end
  end.

Definition strEqb (a b : str) : bool := match strCmp a b with Eq => true | _ => false end.
Definition strLtb (a b : str) : bool := match strCmp a b with Lt => true | _ => false end.
Definition strLeb (a b : str) : bool := match strCmp a b with Gt => false | _ => true end.

(** string.c strSubN(this, 0, n). *)
Definition strPrefix (n : nat) (a : str) : str := firstn n a.

(** string.c strBeginsWith: the first bytes of [a] are [p]. *)
Definition strBeginsWith (a p : str) : bool := strEqb (firstn (length p) a) p.

(** stringList.c strLstExists. *)
Definition strLstExists (l : list str) (a : str) : bool := existsb (strEqb a) l.

(** Insertion sort with a "less or equal" test on keys, ascending and descending (list.c lstSort). *)
Section Sort.
  Context {A : Type} (key : A -> str) (leb : str -> str -> bool).
  Fixpoint insertBy (x : A) (l : list A) : list A :=
    match l with
    | [] => [x]
    | y :: r => if leb (key x) (key y) then x :: l else y :: insertBy x r
    end.
  Fixpoint sortBy (l : list A) : list A :=
    match l with [] => [] | x :: r => insertBy x (sortBy r) end.
End Sort.
Definition strLstSortAsc (l : list str) : list str := sortBy (fun s => s) strLeb l.
Definition strLstSortDesc (l : list str) : list str := sortBy (fun s => s) (fun a b => strLeb b a) l.

(** * Facts *)

Lemma strCmp_refl a : strCmp a a = Eq.
Proof. induction a as [|x a IH]; cbn; [reflexivity|]. now rewrite Z.compare_refl. Qed.

Lemma strCmp_eq a b : strCmp a b = Eq <-> a = b.
Proof.
  split; [|intros ->; apply strCmp_refl].
  revert b; induction a as [|x a IH]; intros [|y b]; cbn; try discriminate; [reflexivity|].
  destruct (Z.compare_spec x y); try discriminate. intros H'. subst. f_equal. now apply IH.
Qed.

Lemma strCmp_antisym a b : strCmp b a = CompOpp (strCmp a b).
Proof.
  revert b; induction a as [|x a IH]; intros [|y b]; cbn; try reflexivity.
  rewrite (Z.compare_antisym x y). destruct (x ?= y); cbn; [apply IH|reflexivity|reflexivity].
Qed.

Definition slt (a b : str) : Prop := strCmp a b = Lt.
Definition sle (a b : str) : Prop := strCmp a b <> Gt.

Lemma slt_trans a b c : slt a b -> slt b c -> slt a c.
Proof.
  unfold slt. revert b c; induction a as [|x a IH]; intros [|y b] [|z c]; cbn; try discriminate; try reflexivity.
  destruct (Z.compare_spec x y) as [Exy|Exy|Exy], (Z.compare_spec y z) as [Eyz|Eyz|Eyz]; try discriminate; subst; intros H1 H2.
  - rewrite Z.compare_refl. eapply IH; eauto.
  - destruct (Z.compare_spec y z); try lia; reflexivity.
  - destruct (Z.compare_spec x z); try lia; reflexivity.
  - destruct (Z.compare_spec x z); try lia; reflexivity.
Qed.

Lemma slt_irrefl a : ~ slt a a.
Proof. unfold slt. rewrite strCmp_refl. discriminate. Qed.

Lemma slt_asym a b : slt a b -> ~ slt b a.
Proof. intros H1 H2. exact (slt_irrefl a (slt_trans _ _ _ H1 H2)). Qed.

Lemma slt_total a b : slt a b \/ a = b \/ slt b a.
Proof.
  unfold slt. rewrite (strCmp_antisym a b). destruct (strCmp a b) eqn:E; cbn; auto.
  right; left; now apply strCmp_eq.
Qed.

Lemma sle_lt_eq a b : sle a b <-> slt a b \/ a = b.
Proof.
  unfold sle, slt. rewrite <- (strCmp_eq a b). destruct (strCmp a b); split; intros; auto; try congruence.
  destruct H; congruence.
Qed.

Lemma sle_refl a : sle a a.
Proof. apply sle_lt_eq. now right. Qed.

Lemma sle_trans a b c : sle a b -> sle b c -> sle a c.
Proof.
  rewrite !sle_lt_eq. intros [H1| ->] [H2| ->]; auto. left; eapply slt_trans; eauto.
Qed.

Lemma sle_not_lt a b : sle a b <-> ~ slt b a.
Proof.
  unfold sle, slt. rewrite (strCmp_antisym a b). destruct (strCmp a b); cbn; split; intros; congruence.
Qed.

Lemma slt_le_trans a b c : slt a b -> sle b c -> slt a c.
Proof. rewrite sle_lt_eq. intros H [H2| <-]; auto. eapply slt_trans; eauto. Qed.
Lemma sle_slt_trans a b c : sle a b -> slt b c -> slt a c.
Proof. rewrite sle_lt_eq. intros [H2| ->] H; auto. eapply slt_trans; eauto. Qed.
Lemma sle_antisym a b : sle a b -> sle b a -> a = b.
Proof. rewrite !sle_lt_eq. intros [H|H] [H'|H']; auto. now apply slt_asym in H. Qed.
Lemma slt_le a b : slt a b -> sle a b.
Proof. rewrite sle_lt_eq. auto. Qed.
Lemma sle_total a b : sle a b \/ sle b a.
Proof. rewrite !sle_lt_eq. destruct (slt_total a b) as [H|[H|H]]; auto. Qed.

Lemma strEqb_eq a b : strEqb a b = true <-> a = b.
Proof. unfold strEqb. rewrite <- strCmp_eq. destruct (strCmp a b); split; congruence. Qed.
Lemma strEqb_spec a b : reflect (a = b) (strEqb a b).
Proof. apply iff_reflect. symmetry. apply strEqb_eq. Qed.
Lemma strEqb_refl a : strEqb a a = true.
Proof. now apply strEqb_eq. Qed.
Lemma strEqb_neq a b : strEqb a b = false <-> a <> b.
Proof. destruct (strEqb_spec a b); split; congruence. Qed.
Lemma strEqb_sym a b : strEqb a b = strEqb b a.
Proof. destruct (strEqb_spec a b), (strEqb_spec b a); congruence. Qed.

Lemma strLtb_lt a b : strLtb a b = true <-> slt a b.
Proof. unfold strLtb, slt. destruct (strCmp a b); split; congruence. Qed.
Lemma strLtb_spec a b : reflect (slt a b) (strLtb a b).
Proof. apply iff_reflect. symmetry. apply strLtb_lt. Qed.
Lemma strLeb_le a b : strLeb a b = true <-> sle a b.
Proof. unfold strLeb, sle. destruct (strCmp a b); split; congruence. Qed.
Lemma strLeb_spec a b : reflect (sle a b) (strLeb a b).
Proof. apply iff_reflect. symmetry. apply strLeb_le. Qed.

Lemma strLstExists_in l a : strLstExists l a = true <-> In a l.
Proof.
  unfold strLstExists. rewrite existsb_exists. split.
  - intros (x & Hx & E). apply strEqb_eq in E. now subst.
  - intros H. exists a. split; [exact H|apply strEqb_refl].
Qed.
Lemma strLstExists_spec l a : reflect (In a l) (strLstExists l a).
Proof. apply iff_reflect. symmetry. apply strLstExists_in. Qed.

Lemma str_dec (a b : str) : {a = b} + {a <> b}.
Proof. destruct (strEqb a b) eqn:E; [left; now apply strEqb_eq|right; now apply strEqb_neq]. Qed.

(** Cutting both sides to the same number of characters keeps a weak order. *)
Lemma prefix_mono n a b : sle a b -> sle (firstn n a) (firstn n b).
Proof.
  unfold sle. revert a b; induction n as [|n IH]; intros a b; cbn [firstn]; [discriminate|].
  destruct a as [|x a], b as [|y b]; cbn; try congruence.
  destruct (x ?= y); try congruence. apply IH.
Qed.

Lemma prefix_slt n a b : slt (firstn n a) (firstn n b) -> slt a b.
Proof. intros H. destruct (slt_total a b) as [L|[->|L]]; auto.
  - now apply slt_irrefl in H.
  - apply slt_le, (prefix_mono n) in L. exfalso. exact (slt_irrefl _ (slt_le_trans _ _ _ H L)).
Qed.

Lemma prefix_le_self n a : sle (firstn n a) a.
Proof.
  unfold sle. revert a; induction n as [|n IH]; intros [|x a]; cbn; try congruence.
  rewrite Z.compare_refl. apply IH.
Qed.

(** * Sorting *)
Section SortFacts.
  Context {A : Type} (key : A -> str).

  Lemma insertBy_perm leb x l : Permutation (insertBy key leb x l) (x :: l).
  Proof.
    induction l as [|y r IH]; cbn; [apply Permutation_refl|].
    destruct (leb (key x) (key y)); [apply Permutation_refl|].
    etransitivity; [apply perm_skip, IH|apply perm_swap].
  Qed.
  Lemma sortBy_perm leb l : Permutation (sortBy key leb l) l.
  Proof.
    induction l as [|x r IH]; cbn; [apply Permutation_refl|].
    etransitivity; [apply insertBy_perm|now apply perm_skip].
  Qed.
  Lemma sortBy_in leb l x : In x (sortBy key leb l) <-> In x l.
  Proof. split; apply Permutation_in; [apply sortBy_perm|apply Permutation_sym, sortBy_perm]. Qed.

  Variable leb : str -> str -> bool.
  Hypothesis leb_total : forall a b, leb a b = true \/ leb b a = true.
  Hypothesis leb_trans : forall a b c, leb a b = true -> leb b c = true -> leb a c = true.
  Definition keyLe (x y : A) : Prop := leb (key x) (key y) = true.

  Lemma insertBy_sorted x l : StronglySorted keyLe l -> StronglySorted keyLe (insertBy key leb x l).
  Proof.
    induction 1 as [|y r Hr IH Hy]; cbn; [repeat constructor|].
    destruct (leb (key x) (key y)) eqn:E.
    - constructor; [now constructor|]. constructor; [exact E|].
      eapply Forall_impl; [|exact Hy]. intros z Hz. unfold keyLe in *. eapply leb_trans; eauto.
    - constructor; [exact IH|]. apply Forall_forall. intros z Hz.
      apply (Permutation_in _ (insertBy_perm leb x r)) in Hz. destruct Hz as [<-|Hz].
      + unfold keyLe. destruct (leb_total (key x) (key y)) as [T|T]; [congruence|exact T].
      + rewrite Forall_forall in Hy. now apply Hy.
  Qed.
  Lemma sortBy_sorted l : StronglySorted keyLe (sortBy key leb l).
  Proof. induction l as [|x r IH]; cbn; [constructor|now apply insertBy_sorted]. Qed.

  (** A list already in order is left alone. *)
  Lemma sortBy_id l : StronglySorted keyLe l -> sortBy key leb l = l.
  Proof.
    induction 1 as [|y r Hr IH Hy]; cbn; [reflexivity|]. rewrite IH.
    destruct r as [|z r]; cbn; [reflexivity|]. inversion Hy; subst.
    unfold keyLe in *. now rewrite H1.
  Qed.
End SortFacts.

Lemma strLeb_total a b : strLeb a b = true \/ strLeb b a = true.
Proof. rewrite !strLeb_le. apply sle_total. Qed.
Lemma strLeb_trans a b c : strLeb a b = true -> strLeb b c = true -> strLeb a c = true.
Proof. rewrite !strLeb_le. apply sle_trans. Qed.

Lemma strLstSortAsc_in l x : In x (strLstSortAsc l) <-> In x l.
Proof. apply sortBy_in. Qed.
Lemma strLstSortDesc_in l x : In x (strLstSortDesc l) <-> In x l.
Proof. apply sortBy_in. Qed.
Lemma strLstSortAsc_perm l : Permutation (strLstSortAsc l) l.
Proof. apply sortBy_perm. Qed.
Lemma strLstSortDesc_perm l : Permutation (strLstSortDesc l) l.
Proof. apply sortBy_perm. Qed.

Lemma StronglySorted_impl {A} (R S : A -> A -> Prop) l :
  (forall x y, R x y -> S x y) -> StronglySorted R l -> StronglySorted S l.
Proof. intros H. induction 1; constructor; auto. eapply Forall_impl; [|eassumption]. auto. Qed.

Lemma strLstSortAsc_sorted l : StronglySorted sle (strLstSortAsc l).
Proof.
  eapply StronglySorted_impl; [|apply (sortBy_sorted (fun s : str => s) strLeb strLeb_total strLeb_trans)].
  intros x y H. now apply strLeb_le.
Qed.
Lemma strLstSortDesc_sorted l : StronglySorted (fun a b => sle b a) (strLstSortDesc l).
Proof.
  eapply StronglySorted_impl; [|apply (sortBy_sorted (fun s : str => s) (fun a b => strLeb b a))].
  - intros x y H. now apply strLeb_le.
  - intros a b. apply strLeb_total.
  - intros a b c H1 H2. eapply strLeb_trans; eauto.
Qed.

(** Strictly sorted lists. *)
Definition ssorted (l : list str) : Prop := StronglySorted slt l.

Lemma ssorted_NoDup l : ssorted l -> NoDup l.
Proof.
  induction 1 as [|x r Hr IH Hx]; constructor; auto.
  intros Hin. rewrite Forall_forall in Hx. exact (slt_irrefl _ (Hx _ Hin)).
Qed.

Lemma ssorted_unique l1 l2 : ssorted l1 -> ssorted l2 -> (forall x, In x l1 <-> In x l2) -> l1 = l2.
Proof.
  intros H1; revert l2; induction H1 as [|x r Hr IH Hx]; intros l2 H2 He.
  - destruct l2 as [|y l2]; [reflexivity|]. destruct (proj2 (He y)); now left.
  - destruct H2 as [|y r2 Hr2 Hy]; [destruct (proj1 (He x)); now left|].
    rewrite Forall_forall in Hx, Hy.
    assert (x = y).
    { destruct (proj1 (He x)) as [E|Hi]; [now left|congruence|].
      destruct (proj2 (He y)) as [E|Hi']; [now left|congruence|].
      exfalso. apply (slt_asym x y); auto. }
    subst y. f_equal. apply IH; [exact Hr2|]. intros z. split; intros Hz.
    + destruct (proj1 (He z)) as [E|Hi]; [now right| |exact Hi]. subst z. exfalso; exact (slt_irrefl _ (Hx _ Hz)).
    + destruct (proj2 (He z)) as [E|Hi]; [now right| |exact Hi]. subst z. exfalso; exact (slt_irrefl _ (Hy _ Hz)).
Qed.

Lemma strLstSortAsc_id l : ssorted l -> strLstSortAsc l = l.
Proof.
  intros H. apply sortBy_id. eapply StronglySorted_impl; [|exact H]. intros x y Hxy. apply strLeb_le, slt_le, Hxy.
Qed.

Lemma StronglySorted_app {A} (R : A -> A -> Prop) l1 l2 :
  StronglySorted R l1 -> StronglySorted R l2 -> (forall x y, In x l1 -> In y l2 -> R x y) -> StronglySorted R (l1 ++ l2).
Proof.
  induction 1 as [|x r Hr IH Hx]; cbn; [auto|]. intros H2 H. constructor.
  - apply IH; [exact H2|]. intros; apply H; [now right|assumption].
  - apply Forall_forall. intros y Hy. apply in_app_or in Hy. destruct Hy as [Hy|Hy].
    + rewrite Forall_forall in Hx. now apply Hx.
    + apply H; [now left|exact Hy].
Qed.

Lemma StronglySorted_app_inv {A} (R : A -> A -> Prop) l1 l2 :
  StronglySorted R (l1 ++ l2) ->
  StronglySorted R l1 /\ StronglySorted R l2 /\ (forall x y, In x l1 -> In y l2 -> R x y).
Proof.
  induction l1 as [|a l1 IH]; cbn; intros H.
  - repeat split; [constructor|exact H|intros ? ? []].
  - inversion H as [|? ? Hs Hf]; subst. destruct (IH Hs) as (H1 & H2 & H3). rewrite Forall_forall in Hf.
    repeat split; [constructor; [exact H1|]|exact H2|].
    + apply Forall_forall. intros y Hy. apply Hf, in_or_app. now left.
    + intros x y [<-|Hx] Hy; [apply Hf, in_or_app; now right|now apply H3].
Qed.

Lemma StronglySorted_filter {A} (R : A -> A -> Prop) f l : StronglySorted R l -> StronglySorted R (filter f l).
Proof.
  induction 1 as [|x r Hr IH Hx]; cbn; [constructor|]. destruct (f x); [constructor|]; auto.
  apply Forall_forall. intros y Hy. apply filter_In in Hy. rewrite Forall_forall in Hx. now apply Hx.
Qed.

Lemma StronglySorted_rev {A} (R : A -> A -> Prop) l :
  StronglySorted R l -> StronglySorted (fun a b => R b a) (rev l).
Proof.
  induction 1 as [|x r Hr IH Hx]; cbn; [constructor|]. apply StronglySorted_app; [exact IH|repeat constructor|].
  intros a b Ha [<-|[]]. rewrite <- in_rev in Ha. rewrite Forall_forall in Hx. now apply Hx.
Qed.

Lemma strLstSortDesc_rev l : ssorted l -> strLstSortDesc l = rev l.
Proof.
  intros H.
  assert (Hu : forall l1 l2 : list str,
    StronglySorted (fun a b => slt b a) l1 -> StronglySorted (fun a b => slt b a) l2 ->
    (forall x, In x l1 <-> In x l2) -> l1 = l2).
  { intros l1 l2 H1 H2 He. apply StronglySorted_rev in H1, H2.
    assert (rev l1 = rev l2) as E.
    { apply ssorted_unique; [exact H1|exact H2|]. intros x. rewrite <- !in_rev. apply He. }
    rewrite <- (rev_involutive l1), <- (rev_involutive l2). now f_equal. }
  apply Hu.
  - pose proof (strLstSortDesc_sorted l) as Hs.
    assert (NoDup (strLstSortDesc l)) as Hn.
    { eapply Permutation_NoDup; [apply Permutation_sym, strLstSortDesc_perm|apply ssorted_NoDup, H]. }
    induction Hs as [|x r Hr IH Hx]; constructor.
    + apply IH. now inversion Hn.
    + apply Forall_forall. intros y Hy. rewrite Forall_forall in Hx. specialize (Hx y Hy).
      apply sle_lt_eq in Hx. destruct Hx as [Hx| ->]; [exact Hx|]. inversion Hn; contradiction.
  - now apply StronglySorted_rev.
  - intros x. rewrite strLstSortDesc_in, <- in_rev. reflexivity.
Qed.
