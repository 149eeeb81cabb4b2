(** Lemmas on adding all ranges and reading them. *)
From Verif Require Import Base Str MultiModel MultiSpec MultiProof MultiProof2.
Open Scope Z_scope.

Lemma oneVersion_at be pr a t : oneVersion ((be ++ [pr]) ++ a :: t) -> same pr a.
Proof.
  induction be as [|x be IH]; [intros (H & _); exact H|]. destruct be as [|y be]; [intros (_ & H & _); exact H|]. intros (_ & H). apply IH. exact H.
Qed.
Lemma inOrder_at be pr a t : inOrder ((be ++ [pr]) ++ a :: t) -> joins pr a.
Proof.
  induction be as [|x be IH]; [intros (H & _); exact H|]. destruct be as [|y be]; [intros (_ & H & _); exact H|]. intros (_ & H). apply IH. exact H.
Qed.
Lemma inOrder_add be : forall pr a, inOrder (be ++ [pr]) -> joins pr a -> inOrder ((be ++ [pr]) ++ [a]).
Proof.
  induction be as [|x be IH]; intros pr a O J; [split; [exact J|exact I]|]. destruct be as [|y be].
  - destruct O as (O1 & _). split; [exact O1|]. split; [exact J|exact I].
  - destruct O as (O1 & O2). split; [exact O1|]. exact (IH _ _ O2 J).
Qed.
Lemma joins_dec p a : joins p a \/ ~ joins p a.
Proof.
  unfold joins. destruct (strEqb (aFile p) (aFile a)) eqn:E; [apply strEqb_eq in E|left; intros X; rewrite X, strEqb_refl in E; discriminate].
  destruct (aLim p) as [x|]; [|right; intros H; destruct (H E) as (? & ? & ? & _); discriminate]. destruct (aLim a) as [y|]; [|right; intros H; destruct (H E) as (? & ? & _ & ? & _); discriminate].
  destruct (Z_le_dec (aOff p + x) (aOff a)) as [L|L]; [left; eauto 6|]. right. intros H. destruct (H E) as (u & v & [= ->] & _ & L2). contradiction.
Qed.

Section Files.
Variable content : str -> option str -> option (list Z).
Definition there (a : add) : Prop := content (aFile a) (aVer a) <> None.

Lemma addAll_spec ro qm l : forall done m, added content done m -> Forall fits l -> oneVersion (done ++ l) -> inOrder done ->
  addAll content ro qm m l <> UB /\ (forall m2, addAll content ro qm m l = Ok m2 -> added content (done ++ l) m2 /\ inOrder (done ++ l)) /\
  (forall e, addAll content ro qm m l = Err e -> (e = EAssert /\ ~ inOrder (done ++ l)) \/ (e = EFileMissing /\ ~ Forall there (done ++ l))).
Proof.
  induction l as [|a l IH]; intros done m AD F OV IO; cbn [addAll].
  - rewrite app_nil_r. split; [discriminate|]. split; [intros m2 [= <-]; now split|discriminate].
  - inversion F as [|? ? F1 F2]; subst. destruct (addReq_spec content ro qm done m a AD F1) as (U & NJ & J & OKS).
    assert (SM : forall pr be, done = be ++ [pr] -> same pr a) by (intros pr be ->; exact (oneVersion_at _ _ _ _ OV)).
    assert (DJ : (forall pr be, done = be ++ [pr] -> joins pr a) \/ exists pr be, done = be ++ [pr] /\ ~ joins pr a).
    { destruct (rev done) as [|pr r] eqn:RD; [left; intros pr be ->; rewrite rev_unit in RD; discriminate|]. assert (DN : done = rev r ++ [pr]) by (rewrite <- (rev_involutive done), RD; reflexivity).
      destruct (joins_dec pr a); [left; intros p2 be E; rewrite DN in E; apply app_inj_tail in E as (_ & <-); assumption|right; eauto]. }
    assert (AS : done ++ a :: l = (done ++ [a]) ++ l) by (now rewrite <- app_assoc).
    destruct DJ as [DJ|(pr & be & DN & DJ)].
    + destruct (J DJ) as (JE & JP). assert (IO2 : inOrder (done ++ [a])).
      { destruct (rev done) as [|pr r] eqn:RD; [assert (done = []) as -> by (rewrite <- (rev_involutive done), RD; reflexivity); exact I|]. assert (DN : done = rev r ++ [pr]) by (rewrite <- (rev_involutive done), RD; reflexivity). rewrite DN in *. apply inOrder_add; [assumption|now apply (DJ pr (rev r))]. }
      destruct (addReq content ro qm m a) as [m1|e|] eqn:A; cbn [bind]; [|split; [discriminate|]; split; [discriminate|]|congruence].
      * rewrite AS in *. apply IH; auto.
      * intros x [= <-]. right. split; [now apply JE|]. intros T. rewrite AS in T. apply Forall_app in T as (T & _). destruct (JP T) as (m2 & X). discriminate.
    + rewrite (NJ _ _ DN DJ). cbn [bind]. split; [discriminate|]. split; [discriminate|]. intros e [= <-]. left. split; [reflexivity|]. intros O. apply DJ. rewrite DN in O. exact (inOrder_at _ _ _ _ O).
Qed.
Lemma added_nil : added content [] (mkMulti [] [] false).
Proof. unfold added, live, rem. cbn. repeat split; auto. Qed.
Lemma opened_spec qm done m : (0 < qm)%nat -> added content done m ->
  fill content qm false m <> UB /\ (forall e, fill content qm false m = Err e -> e = EFileMissing /\ ~ Forall there done) /\
  forall m2, fill content qm false m = Ok m2 -> okM m2 /\ rem content m2 = concat (map (meant content) done) /\ (Forall there done -> Forall (present content) (mReqs m2)).
Proof.
  intros QM (LV & OK & EF & RM & PR & _). destruct (fill_err content qm false m) as (U & ER). split; [exact U|]. split.
  - intros e H. split; [now apply ER|]. intros T. destruct (fill_ok content qm false m (PR T)) as (m2 & X). congruence.
  - intros m2 H. destruct (fill_spec _ _ _ _ _ LV H) as (L2 & R2 & P2 & Z & _). destruct (Z QM eq_refl EF) as (Z1 & Z2). split; [|split].
    + split; [assumption|]. rewrite R2. now split.
    + unfold rem. rewrite P2. exact RM.
    + intros T. rewrite R2. now apply PR.
Qed.
End Files.
