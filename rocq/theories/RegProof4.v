(** Expressions without '|' have one branch; the prefix of the expression for a segment. *)
From Coq Require Import String Ascii.
From Verif Require Import Base Str RegModel RegNameModel RegSpec RegProof RegProof2 RegProof3.
Open Scope Z_scope.

Lemma parseItems_in s : forall first acc rs t, parseItems s first acc = Ok (rs, t) -> incl t s.
Proof.
  assert (G : forall n s, (length s <= n)%nat -> forall first acc rs t, parseItems s first acc = Ok (rs, t) -> incl t s).
  { clear s. induction n as [|n IH]; intros s L first acc rs t E.
    - destruct s; [discriminate E|cbn in L; lia].
    - destruct s as [|c s]; [discriminate E|]. cbn [parseItems] in E. cbn in L. destruct ((c =? cBrackR) && negb first).
      { injection E as <- <-. apply incl_tl. apply incl_refl. }
      destruct (c =? cBrack); [discriminate|]. destruct s as [|m [|d s]].
      + discriminate E.
      + apply IH in E; [apply incl_tl; exact E|cbn in *; lia].
      + destruct ((m =? cMinus) && negb (d =? cBrackR)).
        * destruct (d =? cBrack); [discriminate|]. destruct (c <=? d); [|discriminate]. apply IH in E; [|cbn in *; lia]. do 3 apply incl_tl. exact E.
        * apply IH in E; [apply incl_tl; exact E|cbn in *; lia]. }
  eapply G. apply Nat.le_refl.
Qed.
Lemma parseClass_in s r t : parseClass s = Ok (r, t) -> incl t s.
Proof.
  unfold parseClass. destruct s as [|c s]; [discriminate|]. destruct (c =? cCaret).
  - destruct (parseItems s true []) as [[rs t']| |] eqn:E; try discriminate. intros [= <- <-]. apply incl_tl. eapply parseItems_in; exact E.
  - destruct (parseItems (c :: s) true []) as [[rs t']| |] eqn:E; try discriminate. intros [= <- <-]. eapply parseItems_in; exact E.
Qed.
Lemma parseNum_in s : forall acc n t, parseNum s acc = (n, t) -> incl t s.
Proof.
  induction s as [|c s IH]; intros acc n t E; cbn [parseNum] in E.
  - injection E as _ <-. apply incl_refl.
  - destruct (isDigit c); [apply incl_tl; eapply IH; exact E|]. injection E as _ <-. apply incl_refl.
Qed.
Lemma parseBound_in s lo hi t : parseBound s = Ok (lo, hi, t) -> incl t s.
Proof.
  unfold parseBound. destruct s as [|c s]; [discriminate|]. destruct (isDigit c); [|discriminate].
  destruct (parseNum (c :: s) 0) as [l r] eqn:E. apply parseNum_in in E. destruct r as [|d r1]; [discriminate|].
  assert (I1 : incl r1 (c :: s)) by (intros x Hx; apply E; right; exact Hx). destruct (d =? cBraceR).
  - destruct (l <=? 255); [|discriminate]. intros [= <- <- <-]. exact I1.
  - destruct (d =? cComma); [|discriminate]. destruct r1 as [|e r2]; [discriminate|]. destruct (e =? cBraceR).
    + destruct (l <=? 255); [|discriminate]. intros [= <- <- <-]. intros x Hx. apply I1. right; exact Hx.
    + destruct (isDigit e); [|discriminate]. destruct (parseNum (e :: r2) 0) as [h r3] eqn:E3. apply parseNum_in in E3. destruct r3 as [|f r4]; [discriminate|].
      destruct ((f =? cBraceR) && (l <=? h) && (h <=? 255)); [|discriminate]. intros [= <- <- <-]. intros x Hx. apply I1. apply E3. right; exact Hx.
Qed.

Lemma parse_one fuel : forall s cur stack l, ~ In cBar s -> parse fuel s cur stack = Ok l ->
  Forall (fun f : frame => fst f = []) (cur :: stack) -> exists r, l = [r].
Proof.
  induction fuel as [|fuel IH]; intros s cur stack l N E F; cbn [parse] in E; [discriminate|]. destruct s as [|c t].
  - destruct stack; [|discriminate]. injection E as <-. unfold branches. inversion F as [|x y Hx Hy]. rewrite Hx. exists (seqRe (snd cur)). reflexivity.
  - assert (Nt : ~ In cBar t) by (intros H; apply N; right; exact H).
    assert (REP : forall g cur', repeatLast g cur = Ok cur' -> Forall (fun f : frame => fst f = []) (cur' :: stack)).
    { intros g cur' H. apply repeatLast_fst in H as [H _]. inversion F as [|x y Hx Hy]. constructor; [rewrite H; exact Hx|exact Hy]. }
    assert (ADD : forall r, Forall (fun f : frame => fst f = []) (addPiece r cur :: stack)).
    { intros r. inversion F as [|x y Hx Hy]. constructor; [exact Hx|exact Hy]. }
    destruct (c =? cBar) eqn:C1; [exfalso; apply N; left; lia|].
    destruct (c =? cOpen); [eapply IH; [exact Nt|exact E|constructor; [reflexivity|exact F]]|].
    destruct (c =? cClose).
    { destruct stack as [|f st]; [discriminate|]. eapply IH; [exact Nt|exact E|]. inversion F as [|x y Hx Hy]. inversion Hy as [|x' y' Hx' Hy']. constructor; [exact Hx'|exact Hy']. }
    destruct (c =? cStar).
    { destruct (repeatLast _ cur) as [cur'| |] eqn:R; try discriminate E. eapply IH; [exact Nt|exact E|eapply REP; exact R]. }
    destruct (c =? cPlus).
    { destruct (repeatLast _ cur) as [cur'| |] eqn:R; try discriminate E. eapply IH; [exact Nt|exact E|eapply REP; exact R]. }
    destruct (c =? cQuest).
    { destruct (repeatLast _ cur) as [cur'| |] eqn:R; try discriminate E. eapply IH; [exact Nt|exact E|eapply REP; exact R]. }
    destruct (c =? cBrace).
    { destruct (parseBound t) as [[[lo hi] t']| |] eqn:B; try discriminate E. cbn [bind] in E.
      destruct (repeatLast _ cur) as [cur'| |] eqn:R; try discriminate E. eapply IH; [|exact E|eapply REP; exact R].
      intros H. apply Nt. apply parseBound_in in B. apply B. exact H. }
    destruct (c =? cBrack).
    { destruct (parseClass t) as [[r t']| |] eqn:B; try discriminate E. eapply IH; [|exact E|apply ADD].
      intros H. apply Nt. apply parseClass_in in B. apply B. exact H. }
    destruct (c =? cDot); [eapply IH; [exact Nt|exact E|apply ADD]|].
    destruct (c =? cCaret); [eapply IH; [exact Nt|exact E|apply ADD]|].
    destruct (c =? cDollar); [eapply IH; [exact Nt|exact E|apply ADD]|].
    destruct (c =? cBack).
    { destruct t as [|e t]; [discriminate|]. destruct (escapable e); [|discriminate]. eapply IH; [|exact E|apply ADD]. intros H. apply Nt. right; exact H. }
    eapply IH; [exact Nt|exact E|apply ADD].
Qed.
Lemma regcomp_one e l : ~ In 124 e -> regcomp e = Ok l -> exists r, l = [r].
Proof. intros N E. eapply parse_one; [exact N|exact E|]. constructor; [reflexivity|constructor]. Qed.

Lemma prefix_begins e p s : (forall l, regcomp e = Ok l -> exists r, l = [r]) -> regExpPrefix e = Some p -> notOptional (skipn (S (length p)) e) ->
  regExpMatchOne e s = Ok true -> exists t, s = p ++ t.
Proof.
  intros One P N M. unfold regExpMatchOne, regExpNew in M. destruct (regcomp e) as [l| |] eqn:E; try discriminate M. cbn [bind] in M.
  destruct (One l eq_refl) as [r ->]. destruct (prefix_sound e p [r] P E N) as (r' & l' & El & G). injection El as <- <-.
  cbn [altRe] in M. injection M as M. apply regexec_spec in M as (b & m & a & -> & H). apply G in H as [-> (m' & ->)].
  exists (m' ++ a). cbn [app]. symmetry. apply app_assoc.
Qed.

Lemma prefixScan_app p t : forallb (fun c => negb (endsPrefix c)) p = true -> (match t with c :: _ => endsPrefix c = true | [] => True end) -> prefixScan (p ++ t) = (p, t).
Proof.
  intros H Ht. induction p as [|c p IH]; cbn [app prefixScan].
  - destruct t as [|c t]; [reflexivity|]. cbn [prefixScan]. rewrite Ht. reflexivity.
  - cbn [forallb] in H. apply andb_prop in H as [H1 H2]. apply negb_true_iff in H1. rewrite H1, (IH H2). reflexivity.
Qed.
Lemma find_prefix seg : length seg = 24%nat -> forallb (fun c => negb (endsPrefix c)) seg = true ->
  regExpPrefix (walFindRegExp seg) = Some seg.
Proof.
  intros L F. assert (E : walFindRegExp seg = 94 :: seg ++ (if walIsPartial seg then walPartialExt else []) ++ findTail).
  { unfold walFindRegExp. rewrite <- L, firstn_all. reflexivity. }
  rewrite E. cbn [regExpPrefix]. change (94 =? cCaret) with true. cbv iota.
  rewrite prefixScan_app; [|exact F|destruct (walIsPartial seg); reflexivity].
  destruct seg as [|c seg]; [discriminate L|]. destruct (walIsPartial (c :: seg)); cbn [app].
  - assert (X : forall prev, anchorLater prev (walPartialExt ++ findTail) = false) by (intros prev; reflexivity). rewrite X. reflexivity.
  - assert (X : forall prev, anchorLater prev findTail = false) by (intros prev; reflexivity). rewrite X. reflexivity.
Qed.

Lemma hex_literal seg : (forall c, In c seg -> 48 <= c <= 57 \/ 65 <= c <= 70) -> forallb literal seg = true /\ forallb (fun c => negb (endsPrefix c)) seg = true.
Proof.
  intros H. split; apply forallb_forall; intros c Hc; specialize (H c Hc); unfold literal, endsPrefix; 
    change cBar with 124; change cOpen with 40; change cClose with 41; change cStar with 42; change cPlus with 43; change cQuest with 63; change cBrace with 123;
    change cBrack with 91; change cDot with 46; change cCaret with 94; change cDollar with 36; change cBack with 92; change cMinus with 45;
    apply negb_true_iff; repeat (apply orb_false_intro); apply Z.eqb_neq; lia.
Qed.
Lemma hex_not_partial seg : length seg = 24%nat -> (forall c, In c seg -> 48 <= c <= 57 \/ 65 <= c <= 70) -> walIsPartial seg = false.
Proof.
  intros L H. unfold walIsPartial. apply andb_false_intro2. destruct (strEqb_spec (skipn (length seg - length walPartialExt) seg) walPartialExt) as [E|N]; [|reflexivity].
  exfalso. assert (I : In 46 seg). { rewrite <- (firstn_skipn (length seg - length walPartialExt) seg), E. apply in_or_app. right. left. reflexivity. }
  specialize (H 46 I). lia.
Qed.
