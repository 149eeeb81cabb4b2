(** Lemmas on annotating. *)
From Verif Require Import Base Str ExpireModel AnnotateModel AnnotateSpec.
Open Scope Z_scope.

Lemma put_in kv k v : NoDup (map fst kv) -> NoDup (map fst (kvPut kv k v)) /\ (forall x, In x (map fst (kvPut kv k v)) <-> x = k \/ In x (map fst kv)) /\
  forall a b, In (a, b) (kvPut kv k v) <-> (a = k /\ b = v) \/ (a <> k /\ In (a, b) kv).
Proof.
  induction kv as [|[x y] kv IH]; intros N; cbn [kvPut].
  - cbn [map fst In]. split; [constructor; [exact (@in_nil _ k)|constructor]|]. split; [intros x; split; [intros [H|[]]; now left|intros [H|[]]; now left]|]. intros a b. split; [intros [H|[]]; left; now injection H as <- <-|intros [(-> & ->)|(_ & [])]; now left].
  - inversion N as [|? ? N1 N2]; subst. destruct (IH N2) as (A & B & C). destruct (strEqb x k) eqn:E.
    + apply strEqb_eq in E as ->. cbn [map fst In]. split; [constructor; assumption|]. split; [intros z; split; [intros [H|H]; auto|intros [H|[H|H]]; auto]|]. intros a b. split.
      * intros [H|H]; [injection H as <- <-; now left|]. right. split; [|now right]. intros ->. apply N1. apply in_map_iff. now exists (k, b).
      * intros [(-> & ->)|(NE & [H|H])]; [now left|injection H as -> ->; congruence|now right].
    + assert (NE : x <> k) by (intros ->; rewrite strEqb_refl in E; discriminate). cbn [map fst In]. split; [constructor; [rewrite B; tauto|assumption]|]. split; [intros z; rewrite B; tauto|]. intros a b. rewrite C. split.
      * intros [H|[H|H]]; [injection H as <- <-; right; tauto|tauto|tauto].
      * tauto.
Qed.
Lemma remove_in2 kv k : NoDup (map fst kv) -> NoDup (map fst (kvRemove kv k)) /\ (forall x, In x (map fst (kvRemove kv k)) -> In x (map fst kv)) /\
  forall a b, In (a, b) (kvRemove kv k) <-> a <> k /\ In (a, b) kv.
Proof.
  induction kv as [|[x y] kv IH]; intros N; cbn [kvRemove]; [cbn; repeat split; try tauto; constructor|].
  inversion N as [|? ? N1 N2]; subst. destruct (IH N2) as (A & B & C). destruct (strEqb x k) eqn:E.
  - apply strEqb_eq in E as ->. cbn [map fst In]. split; [assumption|]. split; [tauto|]. intros a b. split.
    + intros H. split; [|now right]. intros ->. apply N1. apply in_map_iff. now exists (k, b).
    + intros (NE & [H|H]); [injection H as -> ->; congruence|assumption].
  - assert (NE : x <> k) by (intros ->; rewrite strEqb_refl in E; discriminate). cbn [map fst In]. split; [constructor; [intros H; now apply N1, B|assumption]|]. split; [intros z [H|H]; auto|]. intros a b. rewrite C. split.
    + intros [H|H]; [injection H as <- <-; tauto|tauto].
    + tauto.
Qed.
Lemma fold_wanted new : forall kv, NoDup (map fst kv) -> NoDup (map fst new) ->
  let kv2 := fold_left (fun kv p => match snd p with [] => kvRemove kv (fst p) | _ => kvPut kv (fst p) (snd p) end) new kv in
  NoDup (map fst kv2) /\ forall k v, In (k, v) kv2 <-> wanted kv new k v.
Proof.
  induction new as [|[x y] new IH]; intros kv N M; cbn [fold_left]; [split; [assumption|]; intros k v; unfold wanted; cbn; tauto|].
  inversion M as [|? ? M1 M2]; subst. cbn [fst snd]. set (kv1 := match y with [] => kvRemove kv x | _ => kvPut kv x y end).
  assert (K : NoDup (map fst kv1) /\ forall k v, In (k, v) kv1 <-> (k = x /\ v = y /\ y <> []) \/ (k <> x /\ In (k, v) kv)).
  { subst kv1. destruct y as [|c y].
    - destruct (remove_in2 kv x N) as (A & _ & C). split; [assumption|]. intros k v. rewrite C. split; [tauto|]. intros [(_ & _ & H)|H]; [congruence|assumption].
    - destruct (put_in kv x (c :: y) N) as (A & _ & C). split; [assumption|]. intros k v. rewrite C. split; [|tauto]. intros [(-> & ->)|H]; [left; repeat split; discriminate|now right]. }
  destruct K as (K1 & K2). destruct (IH kv1 K1 M2) as (A & B). split; [exact A|]. intros k v. rewrite B. unfold wanted. rewrite K2. cbn [map fst In]. split.
  - intros [(I & V)|(NI & [(-> & -> & V)|(NE & I)])].
    + left. split; [now right|assumption].
    + left. split; [now left|assumption].
    + right. split; [|assumption]. intros [H|H]; [now apply NE|contradiction].
  - intros [([H|I] & V)|(NI & I)].
    + injection H as <- <-. right. split; [assumption|]. left. repeat split. exact V.
    + left. now split.
    + right. split; [tauto|]. right. split; [intros ->; apply NI; now left|assumption].
Qed.
Lemma annotate_spec e new : NoDup (map fst (kvs (nAnnot e))) -> NoDup (map fst new) -> annotated new e (mkEntry (nLabel e) (annotate (nAnnot e) new) (nRest e)).
Proof.
  intros N M. unfold annotated, annotate. cbn [nLabel nRest nAnnot]. fold (kvs (nAnnot e)). destruct (fold_wanted new _ N M) as (A & B). match type of A with NoDup (map fst ?x) => set (kv := x) in * end. clearbody kv.
  split; [reflexivity|]. split; [reflexivity|]. assert (K : kvs (match kv with [] => None | _ => Some kv end) = kv) by (destruct kv; reflexivity). rewrite K. split; [exact B|]. split; [exact A|]. destruct kv; discriminate.
Qed.
Definition unique (l : list entry) : Prop := Forall (fun e => NoDup (map fst (kvs (nAnnot e)))) l.
Lemma set_spec l label new : labelIn l label = true -> unique l -> NoDup (map fst new) -> infoAnnotated label new l (annotationSet l label new).
Proof.
  intros L U M. induction l as [|e l IH]; [discriminate|]. inversion U as [|? ? U1 U2]; subst. cbn [annotationSet]. unfold labelIn in L. cbn [existsb] in L. destruct (strEqb (nLabel e) label) eqn:E.
  - apply strEqb_eq in E. exists [], e, (mkEntry (nLabel e) (annotate (nAnnot e) new) (nRest e)), l. split; [reflexivity|]. split; [assumption|]. split; [tauto|]. split; [now apply annotate_spec|reflexivity].
  - destruct (IH L U2) as (b & x & x2 & a & -> & LX & NB & AN & EQ). exists (e :: b), x, x2, a. rewrite EQ. repeat (split; [reflexivity || assumption|]). split; [|split; [assumption|reflexivity]].
    cbn [map In]. intros [H|H]; [rewrite H, strEqb_refl in E; discriminate|contradiction].
Qed.
Lemma label_in l label : labelIn l label = true <-> In label (map nLabel l).
Proof.
  unfold labelIn. rewrite existsb_exists, in_map_iff. split; intros (e & H1 & H2); exists e; [apply strEqb_eq in H2|rewrite strEqb_eq]; auto.
Qed.
Lemma update_nth {A} (l : list A) f : forall i j, nth_error (update l i f) j = if (i =? j)%nat then option_map f (nth_error l j) else nth_error l j.
Proof. induction l as [|x l IH]; intros [|i] [|j]; cbn; try reflexivity; [now destruct (i =? j)%nat|apply IH]. Qed.
Lemma update_length {A} (l : list A) f : forall i, length (update l i f) = length l.
Proof. induction l as [|x l IH]; intros [|i]; cbn; auto. Qed.
Lemma step_other default label new st idx : let st2 := annotateRepo default label new st idx in
  length (fst (fst st2)) = length (fst (fst st)) /\ (forall j, j <> default -> nth_error (fst (fst st2)) j = nth_error (fst (fst st)) j) /\
  (forall j, option_map pKey (nth_error (fst (fst st2)) j) = option_map pKey (nth_error (fst (fst st)) j)).
Proof.
  destruct st as [[repos found] errors]. cbn. destruct (nth_error repos idx) as [r|]; [|auto]. destruct (loadInfo r) as [l| |]; cbn [fst]; auto. destruct (labelIn l label); cbn [fst]; auto.
  split; [apply update_length|]. split; intros j; rewrite update_nth; [intros N; apply Nat.eqb_neq in N; rewrite Nat.eqb_sym in N; now rewrite N|]. destruct (default =? j)%nat; [|reflexivity]. destruct (nth_error repos j); reflexivity.
Qed.
Lemma fold_other default label new idxs : forall st, let st2 := fold_left (annotateRepo default label new) idxs st in
  length (fst (fst st2)) = length (fst (fst st)) /\ forall j, j <> default -> nth_error (fst (fst st2)) j = nth_error (fst (fst st)) j.
Proof.
  induction idxs as [|i idxs IH]; intros st; cbn [fold_left]; [auto|]. destruct (IH (annotateRepo default label new st i)) as (A & B). destruct (step_other default label new st i) as (C & D & _). split; [cbv zeta in *; congruence|]. intros j N. cbv zeta in *. rewrite B, D by assumption. reflexivity.
Qed.
