From Verif Require Import Base Str ManifestModel LinkCheckModel LinkCheckSpec LinkCheckProof.
Open Scope Z_scope.

Definition noSlash (c : str) : Prop := ~ In 47 c.

Lemma split_noslash c r : noSlash c -> splitSlash (c ++ 47 :: r) = c :: splitSlash r.
Proof.
  induction c as [|x c IH]; intros H; [reflexivity|]. cbn. destruct (Z.eqb_spec x 47) as [->|E]; [elim H; now left|].
  rewrite IH; [reflexivity|]. intros F. apply H. now right.
Qed.
Lemma split_one c : noSlash c -> splitSlash c = [c].
Proof.
  induction c as [|x c IH]; intros H; [reflexivity|]. cbn. destruct (Z.eqb_spec x 47) as [->|E]; [elim H; now left|].
  rewrite IH; [reflexivity|]. intros F. apply H. now right.
Qed.
Lemma split_join l : l <> [] -> Forall noSlash l -> splitSlash (joinSlash l) = l.
Proof.
  induction l as [|a l IH]; intros Hn F; [congruence|]. inversion F; subst. destruct l as [|b l]; [now apply split_one|].
  change (joinSlash (a :: b :: l)) with (a ++ 47 :: joinSlash (b :: l)). rewrite split_noslash by assumption. f_equal. apply IH; [discriminate|assumption].
Qed.
Lemma join_path cs : cs <> [] -> joinSlash ([] :: cs) = pathOf cs.
Proof.
  intros H. destruct cs as [|c cs]; [congruence|]. change (47 :: joinSlash (c :: cs) = pathOf (c :: cs)). clear H.
  revert c. induction cs as [|d cs IH]; intros c; [unfold pathOf; cbn; now rewrite app_nil_r|].
  change (47 :: c ++ 47 :: joinSlash (d :: cs) = 47 :: c ++ pathOf (d :: cs)). now rewrite IH.
Qed.
Lemma split_path cs : cs <> [] -> Forall noSlash cs -> splitSlash (pathOf cs) = [] :: cs.
Proof. intros H F. rewrite <- join_path by exact H. apply split_join; [discriminate|]. constructor; [intros []|exact F]. Qed.

Lemma removelast_cons {A} (a : A) l : l <> [] -> removelast (a :: l) = a :: removelast l.
Proof. destruct l; [congruence|reflexivity]. Qed.

(** [ws]: parts that are not empty; the list of the base always begins with the empty part *)
Lemma absLoop_walk rel : Forall (fun c => c <> []) rel -> forall base, Forall (fun c => c <> []) base ->
  absLoop rel ([] :: base) = match walk base rel with Some l => Ok ([] :: l) | None => Err EAssert end /\
  absLoop (rel ++ [[]]) ([] :: base) = match walk base rel with Some l => Ok ([] :: l) | None => Err EAssert end.
Proof.
  induction 1 as [|c rel Hc Hr IH]; intros base Hb; [split; reflexivity|].
  destruct c as [|x c]; [congruence|]. cbn [absLoop app walk].
  destruct (strEqb (x :: c) [46;46]).
  - destruct base as [|b0 base0] using rev_ind; [split; reflexivity|]. clear IHbase0.
    assert (b0 <> []) as Hb0. { apply Forall_app in Hb as [_ Hb]. now inversion Hb. }
    assert (base0 ++ [b0] <> []) as Hne by (destruct base0; discriminate).
    change ([] :: base0 ++ [b0]) with (([] :: base0) ++ [b0]). rewrite rev_app_distr. cbn [rev app].
    change ([] :: base0 ++ [b0]) with ([] :: (base0 ++ [b0])). rewrite removelast_cons by exact Hne. rewrite removelast_last.
    destruct b0 as [|y b0]; [congruence|]. apply Forall_app in Hb as [Hb _].
    destruct (base0 ++ [y :: b0]) eqn:E; [now elim Hne|]. exact (IH base0 Hb).
  - destruct (strEqb (x :: c) [46]); [now apply IH|].
    change (([] :: base) ++ [x :: c]) with ([] :: (base ++ [x :: c])). apply IH. apply Forall_app. split; [exact Hb|]. now constructor.
Qed.

Lemma join_app_nil l : l <> [] -> joinSlash (l ++ [[]]) = joinSlash l ++ [47].
Proof.
  induction l as [|a l IH]; intros H; [congruence|]. destruct l as [|b l]; [reflexivity|].
  change (a ++ 47 :: joinSlash ((b :: l) ++ [[]]) = (a ++ 47 :: joinSlash (b :: l)) ++ [47]). rewrite IH by discriminate. now rewrite <- app_assoc.
Qed.

Lemma begins_slash_join a l : good a -> strBeginsWith (joinSlash (a :: l)) [47] = false.
Proof.
  intros [H1 H2]. apply begins_iff_false. intros [r E]. destruct a as [|x a]; [congruence|].
  assert (x = 47) as -> by (destruct l; cbn in E; congruence). apply H2. now left.
Qed.
Lemma begins_slash_path cs : cs <> [] -> strBeginsWith (pathOf cs) [47] = true.
Proof. intros H. apply begins_iff. destruct cs as [|c cs]; [congruence|]. exists (c ++ pathOf cs). reflexivity. Qed.

(** Where "/" and something can be in a path *)
Lemma contains_iff sub s : containsSub sub s = true <-> exists a r, s = a ++ sub ++ r.
Proof.
  induction s as [|x s IH].
  - cbn [containsSub]. rewrite orb_false_r, begins_iff. split.
    + intros [r E]. exists [], r. exact E.
    + intros (a & r & E). destruct a; [|discriminate]. exists r. exact E.
  - cbn [containsSub]. rewrite orb_true_iff, begins_iff, IH. split.
    + intros [[r E]|(a & r & ->)]; [exists [], r; exact E|]. exists (x :: a), r. reflexivity.
    + intros ([|y a] & r & E); [left; exists r; exact E|]. injection E as -> E. right. exists a, r. exact E.
Qed.
Lemma path_slash a r cs : Forall good cs -> pathOf cs = a ++ 47 :: r ->
  exists c d, In c cs /\ ((c = d /\ r = d) \/ exists t, r = d ++ 47 :: t /\ c = d).
Proof.
  intros F. revert a. induction F as [|c cs Hc F IH]; intros a E; [destruct a; discriminate|].
  change (pathOf (c :: cs)) with (47 :: c ++ pathOf cs) in E. destruct a as [|x a].
  - injection E as E. destruct cs as [|d cs].
    + unfold pathOf in E. cbn in E. rewrite app_nil_r in E. exists c, c. split; [now left|]. left. auto.
    + change (pathOf (d :: cs)) with (47 :: d ++ pathOf cs) in E. exists c, c. split; [now left|]. right. eauto.
  - injection E as <- E. destruct Hc as [_ Hc].
    assert (exists a', pathOf cs = a' ++ 47 :: r) as [a' E'].
    { clear -E Hc. revert a E. induction c as [|y c IHc]; intros a E; [exists a; exact E|]. destruct a as [|z a].
      - cbn in E. injection E as -> _. elim Hc. now left.
      - cbn in E. injection E as <- E. apply IHc with a; [|exact E]. intros H. apply Hc. now right. }
    destruct (IH a' E') as (d & e & Hd & H). exists d, e. split; [now right|exact H].
Qed.
Lemma path_no_double cs : Forall good cs -> containsSub [47;47] (pathOf cs) = false.
Proof.
  intros F. destruct (containsSub [47;47] (pathOf cs)) eqn:E; [|reflexivity]. apply contains_iff in E as (a & r & E). cbn in E.
  destruct (path_slash a (47 :: r) cs F E) as (c & d & Hc & H). rewrite Forall_forall in F. destruct (F c Hc) as [G1 G2].
  destruct H as [[E1 E2]|(t & E1 & E2)]; subst.
  - elim G2. now left.
  - destruct d as [|x d]; [congruence|]. injection E1 as <- _. elim G2. now left.
Qed.
Lemma path_no_dots cs : Forall good cs -> (forall c, In c cs -> strBeginsWith c [46;46] = false) -> containsSub [47;46;46] (pathOf cs) = false.
Proof.
  intros F N. destruct (containsSub [47;46;46] (pathOf cs)) eqn:E; [|reflexivity]. apply contains_iff in E as (a & r & E). cbn in E.
  destruct (path_slash a (46 :: 46 :: r) cs F E) as (c & d & Hc & H). rewrite Forall_forall in F. destruct (F c Hc) as [G1 G2]. specialize (N c Hc).
  apply begins_iff_false in N.
  destruct H as [[E1 E2]|(t & E1 & E2)]; subst.
  - elim N. exists r. reflexivity.
  - destruct d as [|x [|y d]]; [congruence| |]; cbn in E1; injection E1 as E1 E3; [|subst; elim N; exists d; reflexivity].
    try discriminate.
Qed.

Lemma walk_good base rel l : Forall good base -> Forall good rel -> walk base rel = Some l ->
  Forall good l /\ (forall c, In c l -> In c base \/ In c rel).
Proof.
  intros Hb Hr. revert base Hb. induction Hr as [|c rel Hc Hr IH]; intros base Hb E; cbn in E.
  - injection E as <-. auto.
  - destruct (strEqb c [46;46]).
    + destruct base as [|b0 base0] using rev_ind; [discriminate|]. clear IHbase0.
      assert (walk (removelast (base0 ++ [b0])) rel = Some l) as E' by (destruct (base0 ++ [b0]) eqn:X; [destruct base0; discriminate|exact E]).
      rewrite removelast_last in E'. apply Forall_app in Hb as [Hb _]. destruct (IH base0 Hb E') as [A B]. split; [exact A|].
      intros d Hd. destruct (B d Hd); [left; apply in_or_app; now left|right; now right].
    + destruct (strEqb c [46]).
      * destruct (IH base Hb E) as [A B]. split; [exact A|]. intros d Hd. destruct (B d Hd); [now left|right; now right].
      * destruct (IH (base ++ [c])) as [A B]; [|exact E|].
        { apply Forall_app. split; [exact Hb|]. now constructor. }
        split; [exact A|]. intros d Hd. destruct (B d Hd) as [H|H]; [|right; now right].
        apply in_app_or in H as [H|[<-|[]]]; [now left|right; now left].
Qed.

Lemma absolute base rel (tr : bool) : base <> [] -> rel <> [] -> Forall good base -> Forall good rel ->
  (forall l c, walk base rel = Some l -> In c l -> strBeginsWith c [46;46] = false) ->
  strPathAbsolute (joinSlash rel ++ (if tr then [47] else [])) (pathOf base) =
    match walk base rel with None => Err EAssert | Some [] => Ok [47] | Some l => Ok (pathOf l) end.
Proof.
  intros Hb Hr Gb Gr Hd. unfold strPathAbsolute.
  assert (strBeginsWith (joinSlash rel ++ (if tr then [47] else [])) [47] = false) as ->.
  { destruct rel as [|a rel]; [congruence|]. inversion Gr; subst. destruct tr; [|rewrite app_nil_r; now apply begins_slash_join].
    rewrite <- join_app_nil by discriminate. change ((a :: rel) ++ [[]]) with (a :: (rel ++ [[]])). now apply begins_slash_join. }
  rewrite begins_slash_path by exact Hb. cbn [negb].
  assert (NE : forall l, Forall good l -> Forall (fun c => c <> []) l) by (intros l; apply Forall_impl; intros c [H _]; exact H).
  assert (NS : forall l, Forall good l -> Forall noSlash l) by (intros l; apply Forall_impl; intros c [_ H]; exact H).
  rewrite split_path by auto.
  assert (EL : absLoop (splitSlash (joinSlash rel ++ (if tr then [47] else []))) ([] :: base) =
    match walk base rel with Some l => Ok ([] :: l) | None => Err EAssert end).
  { destruct (absLoop_walk rel (NE _ Gr) base (NE _ Gb)) as [E1 E2]. destruct tr.
    - rewrite <- join_app_nil by exact Hr. rewrite split_join; [exact E2|destruct rel; discriminate|].
      apply Forall_app. split; [auto|]. constructor; [intros []|constructor].
    - rewrite app_nil_r, split_join by auto. exact E1. }
  rewrite EL. destruct (walk base rel) as [l|] eqn:W; [|reflexivity]. cbn [bind].
  destruct l as [|c l]; [reflexivity|]. cbn [length Nat.eqb].
  change (if Nat.eqb (S (S (length l))) 1 then [47] else joinSlash ([] :: c :: l)) with (joinSlash ([] :: c :: l)).
  rewrite join_path by discriminate. destruct (walk_good _ _ _ Gb Gr W) as [G _].
  rewrite path_no_dots; [|exact G|intros; eapply Hd; eauto]. rewrite path_no_double by exact G. reflexivity.
Qed.
