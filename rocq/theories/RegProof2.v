(** The prefix of an expression is the start of everything it matches. *)
From Verif Require Import Base Str RegModel RegSpec RegProof.
Open Scope Z_scope.

Lemma matches_cat p q b m a :
  matches (RCat p q) b m a <-> exists m1 m2, m = m1 ++ m2 /\ matches p b m1 (m2 ++ a) /\ matches q (b ++ m1) m2 a.
Proof.
  split.
  - inversion 1 as [| | | | |p' q' b' m1 m2 a' H1 H2 E1 E2 E3 E4| | | |]; subst. exists m1, m2. auto.
  - intros (m1 & m2 & -> & H1 & H2). constructor; assumption.
Qed.
Lemma matches_alt p q b m a : matches (RAlt p q) b m a <-> matches p b m a \/ matches q b m a.
Proof.
  split; [inversion 1; subst; auto|]. intros [H|H]; [apply MAltL|apply MAltR]; exact H.
Qed.
Lemma matches_eps b m a : matches REps b m a <-> m = [].
Proof. split; [inversion 1; reflexivity|intros ->; constructor]. Qed.
Lemma matches_beg b m a : matches RBeg b m a <-> b = [] /\ m = [].
Proof. split; [inversion 1; auto|intros [-> ->]; constructor]. Qed.
Lemma matches_end b m a : matches REnd b m a <-> m = [] /\ a = [].
Proof. split; [inversion 1; auto|intros [-> ->]; constructor]. Qed.
Lemma matches_in rs b m a : matches (RCls false rs) b m a <-> exists c, m = [c] /\ exists r, In r rs /\ fst r <= c <= snd r.
Proof. split; [inversion 1; subst; eauto|intros (c & -> & H); constructor; exact H]. Qed.
Lemma matches_range lo hi b m a : matches (RCls false [(lo, hi)]) b m a <-> exists c, m = [c] /\ lo <= c <= hi.
Proof.
  rewrite matches_in. split; intros (c & -> & H).
  - destruct H as (r & [<-|[]] & H). eauto.
  - exists c. split; [reflexivity|]. exists (lo, hi). split; [left; reflexivity|exact H].
Qed.
Lemma matches_chr c b m a : matches (rChr c) b m a <-> m = [c].
Proof.
  unfold rChr. rewrite matches_range. split; [intros (d & -> & H); f_equal; lia|intros ->; exists c; split; [reflexivity|lia]].
Qed.
Lemma matches_any b m a : matches rAny b m a <-> exists c, m = [c].
Proof. split; [inversion 1; subst; eauto|intros (c & ->); apply MOut; intros r []]. Qed.

Lemma matches_fold q : forall acc b m a, matches (fold_left (fun acc p => RCat p acc) q acc) b m a <->
  exists m1 m2, m = m1 ++ m2 /\ matches (seqRe q) b m1 (m2 ++ a) /\ matches acc (b ++ m1) m2 a.
Proof.
  unfold seqRe. induction q as [|r q IH]; intros acc b m a; cbn [fold_left].
  - split.
    + intros H. exists [], m. rewrite app_nil_r. split; [reflexivity|]. split; [constructor|exact H].
    + intros (m1 & m2 & -> & H1 & H2). apply matches_eps in H1. subst m1. rewrite app_nil_r in H2. exact H2.
  - rewrite IH. split.
    + intros (m1 & m2 & -> & H1 & H2). apply matches_cat in H2 as (n1 & n2 & -> & H2 & H3).
      exists (m1 ++ n1), n2. split; [apply app_assoc|]. split; [|rewrite app_assoc; exact H3].
      apply IH. exists m1, n1. split; [reflexivity|]. split; [rewrite <- app_assoc in H1; exact H1|].
      apply matches_cat. exists n1, []. rewrite app_nil_r. split; [reflexivity|]. split; [exact H2|constructor].
    + intros (m1 & m2 & -> & H1 & H2). apply IH in H1 as (k1 & k2 & -> & H1 & H3).
      apply matches_cat in H3 as (n1 & n2 & -> & H3 & H4). apply matches_eps in H4. subst n2. rewrite !app_nil_r in *.
      exists k1, (n1 ++ m2). split; [symmetry; apply app_assoc|]. rewrite <- app_assoc. split; [exact H1|].
      apply matches_cat. exists n1, m2. split; [reflexivity|]. split; [exact H3|rewrite <- app_assoc; exact H2].
Qed.
Lemma matches_seq_cons r q b m a : matches (seqRe (r :: q)) b m a <->
  exists m1 m2, m = m1 ++ m2 /\ matches (seqRe q) b m1 (m2 ++ a) /\ matches r (b ++ m1) m2 a.
Proof.
  unfold seqRe at 1. cbn [fold_left]. rewrite matches_fold. split; intros (m1 & m2 & -> & H1 & H2); exists m1, m2; (split; [reflexivity|]); (split; [exact H1|]).
  - apply matches_cat in H2 as (n1 & n2 & -> & H2 & H3). apply matches_eps in H3. subst n2. rewrite app_nil_r. exact H2.
  - apply matches_cat. exists m2, []. rewrite app_nil_r. split; [reflexivity|]. split; [exact H2|constructor].
Qed.

Section WithPrefix.
  Variable p : str.

  (** Everything the expression matches is at the start of the string and begins with the prefix *)
  Definition good (r : re) : Prop := forall b m a, matches r b m a -> b = [] /\ exists m', m = p ++ m'.

  Lemma good_cons r q : good (seqRe q) -> good (seqRe (r :: q)).
  Proof.
    intros G b m a H. apply matches_seq_cons in H as (m1 & m2 & -> & H1 & H2). apply G in H1 as [-> (m' & ->)].
    split; [reflexivity|]. exists (m' ++ m2). symmetry. apply app_assoc.
  Qed.
  Lemma good_plus r q : good (seqRe (r :: q)) -> good (seqRe (RCat r (RStar r) :: q)).
  Proof.
    intros G b m a H. apply matches_seq_cons in H as (m1 & m2 & -> & H1 & H2). apply matches_cat in H2 as (n1 & n2 & -> & H2 & H3).
    destruct (G b (m1 ++ n1) (n2 ++ a)) as [Hb (m' & E)].
    - apply matches_seq_cons. exists m1, n1. split; [reflexivity|]. split; [rewrite <- app_assoc in H1; exact H1|exact H2].
    - split; [exact Hb|]. exists (m' ++ n2). rewrite !app_assoc. rewrite E. reflexivity.
  Qed.

  Definition done (f : frame) : Prop := exists r l, fst f = r :: l /\ good r.
  Definition invTop (s : str) (f : frame) : Prop :=
    done f \/ fst f = [] /\ good (seqRe (snd f)) /\ (good (seqRe (tl (snd f))) \/ notOptional s).
  Definition deep (f : frame) : Prop := done f \/ fst f = [] /\ good (seqRe (snd f)).
  Definition inv (s : str) (cur : frame) (stack : list frame) : Prop :=
    match stack with [] => invTop s cur | _ => deep (last stack ([], [])) end.

  Lemma done_add r f : done f -> done (addPiece r f).
  Proof. exact (fun H => H). Qed.
  Lemma deep_add s r f : deep f -> invTop s (addPiece r f).
  Proof.
    intros [D|[E G]]; [left; exact D|right]. split; [exact E|]. split; [apply good_cons; exact G|]. left. exact G.
  Qed.
  Lemma top_deep s f : invTop s f -> deep f.
  Proof. intros [D|(E & G & _)]; [left; exact D|right; auto]. Qed.
  Lemma inv_add s s' r cur stack : inv s cur stack -> inv s' (addPiece r cur) stack.
  Proof. unfold inv. destruct stack; [|exact (fun H => H)]. intros H. apply deep_add. eapply top_deep. exact H. Qed.

  Lemma repeatLast_fst g f f' : repeatLast g f = Ok f' -> fst f' = fst f /\ exists r q, snd f = r :: q /\ snd f' = g r :: q.
  Proof.
    unfold repeatLast. destruct (snd f) as [|r q]; [discriminate|]. destruct (repeatable r); [|discriminate].
    intros E. injection E as <-. split; [reflexivity|]. eauto.
  Qed.
  Lemma inv_repeat c t s' g cur cur' stack : inv (c :: t) cur stack -> c = cStar \/ c = cQuest \/ c = cBrace -> repeatLast g cur = Ok cur' -> inv s' cur' stack.
  Proof.
    unfold inv. destruct stack; [|exact (fun H _ _ => H)]. intros H Hc E. apply repeatLast_fst in E as (E & r & q & Er & Eq).
    destruct H as [(r' & l & El & G)|(E0 & G & [G'|N])].
    - left. exists r', l. rewrite E. auto.
    - right. rewrite E, Eq. rewrite Er in G'. cbn [tl] in *. split; [exact E0|]. split; [apply good_cons; exact G'|left; exact G'].
    - exfalso. destruct N as (N1 & N2 & N3 & _). destruct Hc as [Hc|[Hc|Hc]]; contradiction.
  Qed.
  Lemma inv_plus t cur cur' stack : inv (cPlus :: t) cur stack -> repeatLast (fun r => RCat r (RStar r)) cur = Ok cur' -> inv t cur' stack.
  Proof.
    unfold inv. destruct stack; [|exact (fun H _ => H)]. intros H E. apply repeatLast_fst in E as (E & r & q & Er & Eq).
    destruct H as [(r' & l & El & G)|(E0 & G & Ho)].
    - left. exists r', l. rewrite E. auto.
    - right. rewrite E, Eq. rewrite Er in *. cbn [tl] in *. split; [exact E0|]. split; [apply good_plus; exact G|].
      destruct Ho as [G'|(_ & _ & _ & N)]; [left; exact G'|right; exact (N eq_refl)].
  Qed.

  Lemma branches_done s f : invTop s f -> exists r l, branches f = r :: l /\ good r.
  Proof.
    unfold branches. intros [(r & l & -> & G)|(-> & G & _)].
    - exists r, (l ++ [seqRe (snd f)]). split; [reflexivity|exact G].
    - exists (seqRe (snd f)), []. split; [reflexivity|exact G].
  Qed.

  Lemma parse_good fuel : forall s cur stack l, parse fuel s cur stack = Ok l -> inv s cur stack -> exists r l', l = r :: l' /\ good r.
  Proof.
    induction fuel as [|fuel IH]; intros s cur stack l E H; cbn [parse] in E; [discriminate|]. destruct s as [|c t].
    - destruct stack; [|discriminate]. injection E as <-. apply (branches_done [] cur). exact H.
    - destruct (c =? cBar) eqn:C1.
      { eapply IH; [exact E|]. unfold inv in *. destruct stack; [|exact H]. left. apply branches_done in H. exact H. }
      destruct (c =? cOpen) eqn:C2.
      { eapply IH; [exact E|]. unfold inv in *. destruct stack as [|f st]; [|exact H]. cbn [last]. eapply top_deep. exact H. }
      destruct (c =? cClose) eqn:C3.
      { destruct stack as [|f st]; [discriminate|]. eapply IH; [exact E|]. unfold inv in *. destruct st as [|g st].
        - apply deep_add. exact H.
        - exact H. }
      destruct (c =? cStar) eqn:C4.
      { destruct (repeatLast RStar cur) as [cur'| |] eqn:R; try discriminate E. cbn [bind] in E. eapply IH; [exact E|].
        eapply inv_repeat; [exact H| |exact R]. left. lia. }
      destruct (c =? cPlus) eqn:C5.
      { destruct (repeatLast _ cur) as [cur'| |] eqn:R; try discriminate E. cbn [bind] in E. eapply IH; [exact E|].
        assert (c = cPlus) by lia. subst c. eapply inv_plus; [exact H|exact R]. }
      destruct (c =? cQuest) eqn:C6.
      { destruct (repeatLast _ cur) as [cur'| |] eqn:R; try discriminate E. cbn [bind] in E. eapply IH; [exact E|].
        eapply inv_repeat; [exact H| |exact R]. right; left. lia. }
      destruct (c =? cBrace) eqn:C7.
      { destruct (parseBound t) as [[[lo hi] t']| |]; try discriminate E. cbn [bind] in E.
        destruct (repeatLast _ cur) as [cur'| |] eqn:R; try discriminate E. cbn [bind] in E. eapply IH; [exact E|].
        eapply inv_repeat; [exact H| |exact R]. right; right. lia. }
      destruct (c =? cBrack) eqn:C8.
      { destruct (parseClass t) as [[r t']| |]; try discriminate E. cbn [bind] in E. eapply IH; [exact E|]. eapply inv_add; exact H. }
      destruct (c =? cDot); [eapply IH; [exact E|]; eapply inv_add; exact H|].
      destruct (c =? cCaret); [eapply IH; [exact E|]; eapply inv_add; exact H|].
      destruct (c =? cDollar); [eapply IH; [exact E|]; eapply inv_add; exact H|].
      destruct (c =? cBack).
      { destruct t as [|e t]; [discriminate|]. destruct (escapable e); [|discriminate]. eapply IH; [exact E|]; eapply inv_add; exact H. }
      eapply IH; [exact E|]. eapply inv_add; exact H.
  Qed.
End WithPrefix.

(** * Literal text *)
Definition literal (c : Z) : bool :=
  negb ((c =? cBar) || (c =? cOpen) || (c =? cClose) || (c =? cStar) || (c =? cPlus) || (c =? cQuest) || (c =? cBrace) || (c =? cBrack) ||
        (c =? cDot) || (c =? cCaret) || (c =? cDollar) || (c =? cBack)).

Lemma parse_literal fuel c t cur stack : literal c = true -> parse (S fuel) (c :: t) cur stack = parse fuel t (addPiece (rChr c) cur) stack.
Proof.
  unfold literal. intros H. cbn [parse]. apply negb_true_iff in H. repeat (apply orb_false_elim in H as [H ?]).
  repeat match goal with [ E : (c =? _) = false |- _ ] => rewrite E; clear E end. reflexivity.
Qed.
Lemma parse_literals p : forall fuel t cur stack, forallb literal p = true ->
  parse (length p + fuel) (p ++ t) cur stack = parse fuel t (fst cur, rev (map rChr p) ++ snd cur) stack.
Proof.
  induction p as [|c p IH]; intros fuel t cur stack H.
  - cbn. destruct cur; reflexivity.
  - cbn [forallb] in H. apply andb_prop in H as [H1 H2]. cbn [length app Nat.add]. rewrite parse_literal by exact H1.
    rewrite IH by exact H2. cbn [map rev addPiece fst snd]. rewrite <- app_assoc. reflexivity.
Qed.

Lemma matches_literals p : forall q b m a, matches (seqRe (rev (map rChr p) ++ q)) b m a <->
  exists m1, m = m1 ++ p /\ matches (seqRe q) b m1 (p ++ a).
Proof.
  induction p as [|c p IH] using rev_ind; intros q b m a.
  - cbn. split; [intros H; exists m; rewrite app_nil_r; auto|intros (m1 & -> & H); rewrite app_nil_r; exact H].
  - rewrite map_app, rev_app_distr. cbn [map rev app]. rewrite matches_seq_cons. split.
    + intros (m1 & m2 & -> & H1 & H2). apply matches_chr in H2. subst m2. apply IH in H1 as (k & -> & H1).
      exists k. split; [symmetry; apply app_assoc|]. rewrite <- app_assoc. exact H1.
    + intros (m1 & -> & H). exists (m1 ++ p), [c]. split; [apply app_assoc|]. split; [|apply matches_chr; reflexivity].
      apply IH. exists m1. split; [reflexivity|]. rewrite <- app_assoc in H. exact H.
Qed.

Lemma prefixScan_spec s p r : prefixScan s = (p, r) -> s = p ++ r /\ forallb (fun c => negb (endsPrefix c)) p = true.
Proof.
  revert p r. induction s as [|c t IH]; intros p r E; cbn [prefixScan] in E.
  - injection E as <- <-. split; reflexivity.
  - destruct (endsPrefix c) eqn:Ec.
    + injection E as <- <-. split; reflexivity.
    + destruct (prefixScan t) as [p' r']. injection E as <- <-. destruct (IH p' r' eq_refl) as [-> H]. split; [reflexivity|].
      cbn [forallb]. rewrite Ec. exact H.
Qed.

(** A closing parenthesis with nothing open is an error *)
Lemma scan_literal p : forall fuel t cur l, forallb (fun c => negb (endsPrefix c)) p = true -> parse fuel (p ++ t) cur [] = Ok l -> forallb literal p = true.
Proof.
  induction p as [|c p IH]; intros fuel t cur l H E; [reflexivity|]. cbn [forallb] in *. apply andb_prop in H as [H1 H2].
  assert (L : c = cClose \/ literal c = true).
  { unfold endsPrefix, literal in *. destruct (Z.eqb_spec c cClose) as [->|N]; [left; reflexivity|right]. apply negb_true_iff in H1.
    repeat (apply orb_false_elim in H1 as [H1 ?]).
    repeat match goal with [ E : (c =? _) = false |- _ ] => rewrite E; clear E end. reflexivity. }
  destruct fuel as [|fuel]; [discriminate|]. destruct L as [->|L].
  - discriminate E.
  - rewrite L. cbn [andb app] in *. rewrite parse_literal in E by exact L. eapply IH; [exact H2|exact E].
Qed.

Lemma prefix_sound e p l :
  regExpPrefix e = Some p -> regcomp e = Ok l -> notOptional (skipn (S (length p)) e) -> exists r l', l = r :: l' /\ good p r.
Proof.
  unfold regExpPrefix, regcomp. destruct e as [|c t]; [discriminate|]. destruct (c =? cCaret) eqn:Ec; [|discriminate].
  assert (c = cCaret) by lia. subst c. destruct (prefixScan t) as [q r] eqn:Es. destruct q as [|q0 q]; [discriminate|].
  destruct (anchorLater _ r); [discriminate|]. intros E. injection E as E. rewrite E in Es.
  apply prefixScan_spec in Es as [-> Hp]. clear q0 q E Ec. intros E N.
  replace (skipn (S (length p)) (cCaret :: p ++ r)) with r in N by (cbn [skipn]; rewrite skipn_app, skipn_all, Nat.sub_diag; reflexivity).
  change (parse (S (length (cCaret :: p ++ r))) (cCaret :: p ++ r) ([], []) []) with (parse (S (length (p ++ r))) (p ++ r) ([], [RBeg]) []) in E.
  pose proof (scan_literal p _ _ _ _ Hp E) as Hl. rewrite app_length, plus_n_Sm, parse_literals in E by exact Hl. cbn [fst snd] in E.
  eapply parse_good; [exact E|]. unfold inv. right. cbn [fst snd]. split; [reflexivity|]. split; [|right; exact N].
  intros b m a H. apply matches_literals in H as (m1 & -> & H). apply matches_seq_cons in H as (n1 & n2 & -> & H1 & H2).
  cbn in H1. apply matches_eps in H1. subst n1. apply matches_beg in H2 as [H2 ->]. rewrite app_nil_r in H2. subst b.
  split; [reflexivity|]. exists []. symmetry. apply app_nil_r.
Qed.
