From Coq Require Import Permutation.
From Verif Require Import Base Str BlockMapModel BlockMapSpec BlockMapProof2 BlockIncrModel BlockIncrSpec BlockCheckProof RestoreFileModel RestoreFileSpec RestoreFileProof.
Open Scope Z_scope.

(** * Groups by reference *)
Definition refIs (r : Z) (p : nat * item) : bool := iRef (snd p) =? r.
Definition groupsOk (G : list (Z * list (nat * item))) (p : list (nat * item)) : Prop := forall r g, In (r, g) G -> g = filter (refIs r) p.
Lemma refAdd_spec p q : forall G, groupsOk G p -> NoDup (map fst G) -> (forall x, In x p -> iRef (snd x) = iRef (snd q) -> In (iRef (snd q)) (map fst G)) ->
  groupsOk (refAdd G q) (p ++ [q]) /\ NoDup (map fst (refAdd G q)) /\ (forall r, In r (map fst (refAdd G q)) <-> In r (map fst G) \/ r = iRef (snd q)) /\
  Permutation (concat (map snd (refAdd G q))) (concat (map snd G) ++ [q]).
Proof.
  induction G as [|(r, l) G IH]; intros HG HN HC.
  - cbn. split; [|split; [|split]].
    + intros r g [[= <- <-]|[]]. rewrite filter_app. cbn. unfold refIs at 2. rewrite Z.eqb_refl.
      assert (E : filter (refIs (iRef (snd q))) p = []); [|now rewrite E]. clear HG HN. induction p as [|x p IHp]; [reflexivity|]. cbn. unfold refIs at 1. destruct (Z.eqb_spec (iRef (snd x)) (iRef (snd q))) as [Q|Q]; [destruct (HC x (or_introl eq_refl) Q)|]. apply IHp. intros y Hy. apply HC. now right.
    + constructor; [intros []|constructor].
    + intros r. split; [intros [<-|[]]; now right|intros [[]| ->]; now left].
    + apply Permutation_refl.
  - cbn [map fst] in HN. apply NoDup_cons_iff in HN. destruct HN as (Hn & HN). cbn [refAdd]. destruct (Z.eqb_spec r (iRef (snd q))) as [Q|Q].
    + split; [|split; [|split]].
      * intros r' g [[= <- <-]|Hin].
        -- rewrite filter_app, (HG r l (or_introl eq_refl)). cbn. unfold refIs at 3. now rewrite (proj2 (Z.eqb_eq _ _) (eq_sym Q)).
        -- rewrite filter_app, (HG r' g (or_intror Hin)). cbn. unfold refIs at 3. destruct (Z.eqb_spec (iRef (snd q)) r') as [Q2|Q2]; [|now rewrite app_nil_r]. exfalso. apply Hn. rewrite Q, Q2. apply (in_map fst) in Hin. exact Hin.
      * cbn. constructor; assumption.
      * intros r'. cbn. split; [tauto|]. intros [H| ->]; [exact H|now left].
      * cbn. rewrite <- !app_assoc. apply Permutation_app_head. apply Permutation_app_comm.
    + destruct IH as (I1 & I2 & I3 & I4); [intros r' g Hin; apply HG; now right|exact HN|intros x Hx Hr; destruct (HC x Hx Hr) as [E|E]; [cbn in E; congruence|exact E]|]. split; [|split; [|split]].
      * intros r' g [[= <- <-]|Hin]; [|now apply I1]. rewrite filter_app, <- (HG r l (or_introl eq_refl)). cbn. unfold refIs. destruct (Z.eqb_spec (iRef (snd q)) r); [congruence|now rewrite app_nil_r].
      * cbn. constructor; [|exact I2]. rewrite I3. intros [H|H]; [now apply Hn|congruence].
      * intros r'. cbn. rewrite I3. tauto.
      * cbn. rewrite <- app_assoc. apply Permutation_app_head. exact I4.
Qed.
Lemma refGroups_spec l : groupsOk (refGroups l) l /\ NoDup (map fst (refGroups l)) /\ (forall x, In x l -> In (iRef (snd x)) (map fst (refGroups l))) /\ Permutation (concat (map snd (refGroups l))) l.
Proof.
  induction l as [|q l IH] using rev_ind; [cbn; repeat split; try constructor; intros ? []; intros []|]. unfold refGroups in *. rewrite fold_left_app. cbn [fold_left]. destruct IH as (I1 & I2 & I3 & I4).
  destruct (refAdd_spec l q _ I1 I2) as (J1 & J2 & J3 & J4); [intros x Hx Hr; rewrite <- Hr; now apply I3|]. split; [exact J1|]. split; [exact J2|]. split.
  - intros x Hx. rewrite J3. apply in_app_iff in Hx. destruct Hx as [Hx|[<-|[]]]; [left; now apply I3|now right].
  - rewrite J4. now apply Permutation_app_tail.
Qed.
Lemma refInsert_perm p l : Permutation (refInsert p l) (p :: l).
Proof. induction l as [|q l IH]; cbn; [apply Permutation_refl|]. destruct (fst q <? fst p); [apply Permutation_refl|]. rewrite IH. apply perm_swap. Qed.
Lemma refSort_perm l : Permutation (refSort l) l.
Proof. induction l as [|q l IH]; cbn; [apply Permutation_refl|]. rewrite refInsert_perm. now apply perm_skip. Qed.
Lemma concat_perm {A B} (f : A -> list B) l l' : Permutation l l' -> Permutation (concat (map f l)) (concat (map f l')).
Proof.
  induction 1; cbn; [apply Permutation_refl|now apply Permutation_app_head| |eapply Permutation_trans; eassumption]. rewrite !app_assoc. apply Permutation_app_tail, Permutation_app_comm.
Qed.
Lemma filter_split1 {A} (f : A -> bool) l : forall a post, filter f l = a :: post -> exists pre' post', l = pre' ++ a :: post' /\ filter f post' = post.
Proof.
  induction l as [|x l IH]; intros a post E; [discriminate|]. cbn in E. destruct (f x); [injection E as -> E; now exists [], l|]. destruct (IH _ _ E) as (p1 & p2 & -> & E2). now exists (x :: p1), p2.
Qed.
Lemma filter_split2 {A} (f : A -> bool) : forall pre l a b post, filter f l = pre ++ a :: b :: post -> exists pre' mid post', l = pre' ++ a :: mid ++ b :: post'.
Proof.
  induction pre as [|x pre IH]; intros l a b post E; cbn in E.
  - destruct (filter_split1 _ _ _ _ E) as (p1 & p2 & -> & E2). destruct (filter_split1 _ _ _ _ E2) as (p3 & p4 & -> & _). eauto.
  - destruct (filter_split1 _ _ _ _ E) as (p1 & p2 & -> & E2). destruct (IH _ _ _ _ E2) as (a1 & a2 & a3 & ->). exists (p1 ++ x :: a1), a2, a3. now rewrite <- app_assoc.
Qed.
Lemma combine_snd {A} (l : list A) : forall k, map snd (combine (seq k (length l)) l) = l.
Proof. induction l as [|x l IH]; intros k; [reflexivity|]. cbn. now rewrite IH. Qed.
Lemma map_split2 {A B} (f : A -> B) l : forall pre a b post, map f l = pre ++ a :: b :: post -> exists pre' a' b' post', l = pre' ++ a' :: b' :: post' /\ f a' = a /\ f b' = b.
Proof.
  induction l as [|x l IH]; intros pre a b post E; [destruct pre; discriminate|]. destruct pre as [|y pre]; cbn in E.
  - destruct l as [|z l]; [discriminate|]. injection E as <- <- E. now exists [], x, z, l.
  - injection E as <- E. destruct (IH _ _ _ _ E) as (p & a' & b' & q & -> & E1 & E2). now exists (x :: p), a', b', q.
Qed.

(** * Writing blocks *)
Section Writes.
  Variable bs : nat.
  Hypothesis Hbs : (0 < bs)%nat.
  Definition atBlock (c : list Z) (j : nat) (b : list Z) : Prop := forall q, (q < length b)%nat -> nth_error c (j * bs + q) = nth_error b q.

  Lemma nth_writeAt_in c off d p : (off <= p < off + length d)%nat -> nth_error (writeAt c off d) p = nth_error d (p - off).
  Proof.
    intros H. unfold writeAt. destruct d as [|x d'] eqn:Ed; [cbn in H; lia|]. rewrite <- Ed in *. assert (L : length (firstn off c ++ repeat 0 (off - length c)) = off) by (rewrite app_length, firstn_length, repeat_length; lia).
    rewrite app_assoc, nth_error_app2, L by lia. apply nth_error_app1. lia.
  Qed.
  Lemma nth_writeAt_out c off d p y : (p < off \/ off + length d <= p)%nat -> nth_error c p = Some y -> nth_error (writeAt c off d) p = Some y.
  Proof.
    intros H E. unfold writeAt. destruct d as [|x d'] eqn:Ed; [exact E|]. rewrite <- Ed in *. assert (Hp : (p < length c)%nat) by (apply nth_error_Some; congruence).
    assert (L : length (firstn off c ++ repeat 0 (off - length c)) = off) by (rewrite app_length, firstn_length, repeat_length; lia). rewrite app_assoc. destruct H as [H|H].
    - rewrite nth_error_app1 by lia. rewrite nth_error_app1 by (rewrite firstn_length; lia). rewrite <- E. rewrite <- (firstn_skipn off c) at 2. rewrite nth_error_app1 by (rewrite firstn_length; lia). reflexivity.
    - rewrite nth_error_app2, L by lia. rewrite nth_error_app2 by lia. rewrite <- E. rewrite <- (firstn_skipn (off + length d) c) at 2. rewrite nth_error_app2 by (rewrite firstn_length; lia). f_equal. rewrite firstn_length. lia.
  Qed.
  Lemma writeAt_len c off d n : (length c <= n)%nat -> (off + length d <= n)%nat -> (length (writeAt c off d) <= n)%nat.
  Proof. intros H1 H2. unfold writeAt. destruct d as [|x d'] eqn:Ed; [exact H1|]. rewrite <- Ed in *. rewrite !app_length, firstn_length, repeat_length, skipn_length. lia. Qed.

  Lemma blocks_at : forall bl v j b, isBlocks bs v bl -> nth_error bl j = Some b -> (j * bs + length b <= length v)%nat /\ (0 < length b <= bs)%nat /\ atBlock v j b.
  Proof.
    induction bl as [|x bl IH]; intros v j b Bk E; [destruct j; discriminate|]. pose proof (blocks_tl _ _ _ _ Bk) as (B' & Ex). destruct Bk as (Ec & H). destruct (H [] x bl eq_refl) as (H1 & H2). destruct j as [|j]; cbn in E.
    - injection E as ->. cbn in Ec. rewrite <- Ec. split; [rewrite app_length; lia|]. split; [exact H1|]. intros q Hq. cbn. rewrite nth_error_app1; [reflexivity|lia].
    - destruct (IH _ _ _ B' E) as (I1 & I2 & I3). rewrite skipn_length in I1. split; [lia|]. split; [exact I2|]. intros q Hq. rewrite <- (I3 q Hq).
      rewrite <- (firstn_skipn bs v) at 1. rewrite nth_error_app2 by (rewrite firstn_length; lia). f_equal. rewrite firstn_length. cbn. lia.
  Qed.
  Lemma all_at : forall bl v c, isBlocks bs v bl -> (length c <= length v)%nat -> (forall j b, nth_error bl j = Some b -> atBlock c j b) -> c = v.
  Proof.
    induction bl as [|x bl IH]; intros v c Bk L H.
    - destruct Bk as (E & _). cbn in E. subst v. destruct c; [reflexivity|cbn in L; lia].
    - pose proof (blocks_tl _ _ _ _ Bk) as (B' & Ex). destruct Bk as (Ec & Hk). destruct (Hk [] x bl eq_refl) as (H1 & H2). cbn in Ec.
      assert (Lx : (length x <= length c)%nat). { assert (N : nth_error c (length x - 1) <> None). { pose proof (H 0%nat x eq_refl (length x - 1)%nat ltac:(lia)) as Hq. cbn [Nat.mul Nat.add] in Hq. rewrite Hq. apply nth_error_Some. lia. } apply nth_error_Some in N. lia. }
      assert (Ef : firstn (length x) c = x). { apply nth_ext with (d := 0) (d' := 0); [rewrite firstn_length; lia|]. intros n Hn. rewrite firstn_length in Hn. assert (E0 : nth_error c n = nth_error x n) by (apply (H 0%nat x eq_refl n); lia).
        rewrite <- (firstn_skipn (length x) c) in E0. rewrite nth_error_app1 in E0 by (rewrite firstn_length; lia). destruct (nth_error x n) as [y|] eqn:Ey; [|apply nth_error_None in Ey; lia]. rewrite (nth_error_nth _ _ 0 Ey). now apply nth_error_nth. }
      rewrite <- (firstn_skipn bs c), <- (firstn_skipn bs v), <- Ex. assert (Sk : skipn bs c = skipn bs v).
      { apply IH; [exact B'|rewrite !skipn_length; lia|]. intros j b Hj q Hq. rewrite <- (H (S j) b Hj q Hq). rewrite <- (firstn_skipn bs c) at 2.
        destruct bl as [|y bl]; [destruct j; discriminate|]. specialize (H2 ltac:(discriminate)). rewrite nth_error_app2 by (rewrite firstn_length; lia). f_equal. rewrite firstn_length. cbn. lia. }
      rewrite Sk. f_equal. destruct bl as [|y bl].
      + cbn in Ec. rewrite app_nil_r in Ec. subst v. transitivity (firstn (length x) c); [rewrite !firstn_all2 by lia; reflexivity|exact Ef].
      + specialize (H2 ltac:(discriminate)). rewrite <- H2. exact Ef.
  Qed.
  Lemma writes_all v bl : isBlocks bs v bl -> forall ws c, (length c <= length v)%nat -> (forall w, In w ws -> exists j, fst w = (j * bs)%nat /\ nth_error bl j = Some (snd w)) ->
    (forall j b, nth_error bl j = Some b -> In ((j * bs)%nat, b) ws \/ atBlock c j b) -> fold_left (fun c p => writeAt c (fst p) (snd p)) ws c = v.
  Proof.
    intros Bk. induction ws as [|(off, d) ws IH]; intros c L Hw Hc; cbn [fold_left].
    - apply (all_at bl v c Bk L). intros j b Hj. destruct (Hc j b Hj) as [[]|H]. exact H.
    - destruct (Hw _ (or_introl eq_refl)) as (i & E1 & E2). cbn [fst snd] in *. subst off. destruct (blocks_at _ _ _ _ Bk E2) as (P1 & P2 & P3). apply IH; [apply writeAt_len; lia|intros w Hin; apply Hw; now right|].
      intros j b Hj. destruct (Nat.eq_dec j i) as [->|Ne].
      + right. assert (b = d) by congruence. subst b. intros q Hq. rewrite nth_writeAt_in by lia. f_equal. lia.
      + destruct (Hc j b Hj) as [[[= H1 H2]|H]|H]; [|now left|].
        * exfalso. apply Ne. apply (Nat.mul_cancel_r j i bs); lia.
        * right. intros q Hq. specialize (H q Hq). destruct (nth_error b q) as [y|] eqn:Ey; [|apply nth_error_None in Ey; lia]. apply nth_writeAt_out; [|exact H].
          destruct (blocks_at _ _ _ _ Bk Hj) as (_ & Q2 & _). destruct (Nat.lt_total j i) as [Lt|[->|Lt]]; [left|congruence|right].
          -- assert ((S j) * bs <= i * bs)%nat by (apply Nat.mul_le_mono_r; lia). lia.
          -- assert ((S i) * bs <= j * bs)%nat by (apply Nat.mul_le_mono_r; lia). lia.
  Qed.
End Writes.
