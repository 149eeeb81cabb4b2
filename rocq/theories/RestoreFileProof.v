From Verif Require Import Base Str BlockMapModel BlockMapSpec BlockIncrModel BlockIncrSpec BlockCheckProof RestoreFileModel RestoreFileSpec.
Open Scope Z_scope.

Lemma updLast_snoc {A} (f : A -> A) l x : updLast f (l ++ [x]) = l ++ [f x].
Proof. induction l as [|y l IH]; [reflexivity|]. cbn [app updLast]. rewrite IH. destruct l; reflexivity. Qed.

Lemma skipn_skipn' {A} (n : nat) : forall m (l : list A), skipn n (skipn m l) = skipn (n + m) l.
Proof. induction m as [|m IH]; intros l; [now rewrite Nat.add_0_r|]. destruct l; [now rewrite !skipn_nil|]. rewrite Nat.add_succ_r. apply IH. Qed.
Lemma blocks_tl bs x l data : isBlocks bs data (x :: l) -> isBlocks bs (skipn bs data) l /\ x = firstn bs data.
Proof.
  intros (E & H). cbn in E. destruct (H [] x l eq_refl) as (H1 & H2). subst data. destruct l as [|y l].
  - cbn. rewrite app_nil_r. split; [|symmetry; apply firstn_all2; lia]. rewrite skipn_all2 by lia. split; [reflexivity|]. intros [|? ?] ? ? E; discriminate.
  - specialize (H2 ltac:(discriminate)). rewrite skipn_app, firstn_app, H2, Nat.sub_diag, skipn_all2, firstn_all2, firstn_O, app_nil_r by lia. split; [|reflexivity]. split; [reflexivity|].
    intros pre b post E. apply (H (x :: pre)). cbn. now rewrite E.
Qed.
Lemma blocks_len bs data bl : (0 < bs)%nat -> isBlocks bs data bl -> sbBlocks (Z.of_nat bs) (Z.of_nat (length data)) = Z.of_nat (length bl).
Proof.
  intros Hbs. revert data. induction bl as [|x l IH]; intros data B.
  - destruct B as (E & _). cbn in E. subst data. reflexivity.
  - pose proof (blocks_tl _ _ _ _ B) as (B' & Ex). specialize (IH _ B'). destruct B as (E & H). destruct (H [] x l eq_refl) as (H1 & H2). cbn in E. rewrite skipn_length in IH. cbn [length]. rewrite Nat2Z.inj_succ, <- IH.
    assert (L : length data = (length x + length (concat l))%nat) by (rewrite <- E, app_length; reflexivity). unfold sbBlocks. destruct l as [|y l].
    + cbn in L. rewrite Nat.add_0_r in L. rewrite L. replace (length x - bs)%nat with 0%nat by lia. change (Z.of_nat 0) with 0. rewrite Zdiv_0_l, Zmod_0_l. cbn [Z.eqb]. clear - H1 Hbs. destruct (Nat.eq_dec (length x) bs) as [->|N].
      * rewrite Z_div_same_full, Z_mod_same_full by lia. reflexivity.
      * rewrite Z.div_small, Z.mod_small by lia. destruct (Z.eqb_spec (Z.of_nat (length x)) 0); lia.
    + specialize (H2 ltac:(discriminate)). rewrite L, H2. replace (bs + length (concat (y :: l)) - bs)%nat with (length (concat (y :: l))) by lia. rewrite Nat2Z.inj_add.
      set (q := Z.of_nat (length (concat (y :: l)))). set (w := Z.of_nat bs). assert (Hw : w <> 0) by (unfold w; lia). clearbody q w. replace (w + q) with (q + 1 * w) by ring. rewrite Z.div_add, Z_mod_plus_full by exact Hw. destruct (q mod w =? 0); ring.
Qed.

Lemma superLoop_spec bs : forall bl raw idx cur rest n,
  isBlocks bs raw bl -> n = length bl -> (forall b, In b (cur :: rest) -> dbNo b < idx + Z.of_nat (length bl)) ->
  ((idx <= dbNo cur /\ forall pre a b post, cur :: rest = pre ++ a :: b :: post -> dbNo a < dbNo b) \/ (dbNo cur < idx /\ rest = [])) ->
  superLoop bs n idx raw cur rest =
    ((if dbNo cur <? idx then [] else map (fun b => (dbOff b, nth (Z.to_nat (dbNo b - idx)) bl [])) (cur :: rest)), []).
Proof.
  induction bl as [|x bl IH]; intros raw idx cur rest n B -> Hlt Hs.
  - destruct B as (E & _). cbn in E. subst raw. cbn. destruct Hs as [(H1 & _)|(H1 & _)]; [specialize (Hlt cur (or_introl eq_refl)); cbn in Hlt; lia|]. rewrite (proj2 (Z.ltb_lt _ _) H1). reflexivity.
  - pose proof (blocks_tl _ _ _ _ B) as (B' & Ex). cbn [length superLoop]. destruct (Z.eqb_spec idx (dbNo cur)) as [Q|Q].
    + destruct Hs as [(H1 & H2)|(H1 & _)]; [|lia]. rewrite <- Ex. destruct (Z.ltb_spec (dbNo cur) idx); [lia|]. destruct rest as [|c rest].
      * cbn [tl]. rewrite (IH _ (idx + 1) cur [] (length bl) B' eq_refl); [|intros b [<-|[]]; lia|right; split; [lia|reflexivity]].
        destruct (Z.ltb_spec (dbNo cur) (idx + 1)); [|lia]. cbn [map]. rewrite Q, Z.sub_diag. reflexivity.
      * cbn [tl]. assert (Hc : dbNo cur < dbNo c) by (apply (H2 [] cur c rest eq_refl)).
        rewrite (IH _ (idx + 1) c rest (length bl) B' eq_refl).
        -- destruct (Z.ltb_spec (dbNo c) (idx + 1)); [lia|]. rewrite (map_cons _ cur (c :: rest)). replace (dbNo cur - idx) with 0 by lia. change (nth (Z.to_nat 0) (x :: bl) []) with x.
           assert (G : forall b, In b (c :: rest) -> dbNo c <= dbNo b).
           { intros b Hb. assert (K : forall l, (forall pre a b post, c :: l = pre ++ a :: b :: post -> dbNo a < dbNo b) -> forall z, In z l -> dbNo c < dbNo z).
             { clear. intros l. induction l as [|y l IHl] using rev_ind; intros Hl z Hz; [destruct Hz|]. apply in_app_iff in Hz. destruct Hz as [Hz|[<-|[]]].
               - apply IHl; [|exact Hz]. intros pre a b post E. apply (Hl pre a b (post ++ [y])). rewrite app_comm_cons, E. rewrite <- app_assoc. reflexivity.
               - destruct l as [|w l'] using rev_ind; [apply (Hl [] c y [] eq_refl)|]. clear IHl'. assert (dbNo c < dbNo w) by (apply IHl; [intros pre a b post E; apply (Hl pre a b (post ++ [y])); rewrite app_comm_cons, E, <- app_assoc; reflexivity|apply in_app_iff; right; now left]).
                 assert (dbNo w < dbNo y) by (apply (Hl (c :: l') w y []); cbn; rewrite <- app_assoc; reflexivity). lia. }
             destruct Hb as [<-|Hb]; [lia|]. apply Z.lt_le_incl, (K rest); [|exact Hb]. intros pre a b' post E. apply (H2 (cur :: pre) a b' post). cbn. now rewrite E. }
           f_equal. apply (f_equal (cons (dbOff cur, x))). apply map_ext_in. intros b Hb. specialize (G b Hb). f_equal. replace (Z.to_nat (dbNo b - idx)) with (S (Z.to_nat (dbNo b - (idx + 1)))) by lia. reflexivity.
        -- intros b Hb. specialize (Hlt b (or_intror Hb)). cbn [length] in Hlt. lia.
        -- left. split; [lia|]. intros pre a b post E. apply (H2 (cur :: pre) a b post). cbn. now rewrite E.
    + rewrite (IH _ (idx + 1) cur rest (length bl) B' eq_refl).
      * destruct Hs as [(H1 & H2)|(H1 & H2)].
        -- destruct (Z.ltb_spec (dbNo cur) (idx + 1)); [lia|]. destruct (Z.ltb_spec (dbNo cur) idx); [lia|]. f_equal. apply map_ext_in. intros b Hb.
           assert (G : idx + 1 <= dbNo b).
           { assert (K : forall l c, (forall pre a b post, c :: l = pre ++ a :: b :: post -> dbNo a < dbNo b) -> forall z, In z (c :: l) -> dbNo c <= dbNo z).
             { clear. induction l as [|y l IHl]; intros c Hl z [<-|Hz]; try lia; [destruct Hz|]. assert (dbNo c < dbNo y) by (apply (Hl [] c y l eq_refl)). specialize (IHl y ltac:(intros pre a b post E; apply (Hl (c :: pre) a b post); cbn; now rewrite E) z Hz). lia. }
             specialize (K rest cur H2 b Hb). lia. }
           f_equal. replace (Z.to_nat (dbNo b - idx)) with (S (Z.to_nat (dbNo b - (idx + 1)))) by lia. reflexivity.
        -- destruct (Z.ltb_spec (dbNo cur) (idx + 1)); [|lia]. destruct (Z.ltb_spec (dbNo cur) idx); [|lia]. reflexivity.
      * intros b Hb. specialize (Hlt b Hb). cbn [length] in Hlt. lia.
      * destruct Hs as [(H1 & H2)|(H1 & H2)]; [left; split; [lia|exact H2]|right; split; [lia|exact H2]].
Qed.

Definition asc (l : list dBlock) : Prop := forall pre a b post, l = pre ++ a :: b :: post -> dbNo a < dbNo b.
Lemma asc_snoc l a b : asc (l ++ [a]) -> dbNo a < dbNo b -> asc ((l ++ [a]) ++ [b]).
Proof.
  intros H Hb pre x y post E. destruct post as [|z post _] using rev_ind.
  - change (pre ++ [x; y]) with (pre ++ [x] ++ [y]) in E. rewrite app_assoc in E. apply app_inj_tail in E. destruct E as (E & <-). apply app_inj_tail in E. destruct E as (_ & <-). exact Hb.
  - rewrite !app_comm_cons, app_assoc in E. apply app_inj_tail in E. destruct E as (E & _). eapply H. exact E.
Qed.

Section Reads.
  Variable decB : list Z -> res (list Z).
  Variable repo : Z -> Z -> option (list Z).
  Variable bs : nat.
  Hypothesis Hbs : (0 < bs)%nat.

  Definition superOk (F : list Z) (off : Z) (s : dSuper) (ws : list (nat * list Z)) : Prop := exists e raw bl,
    sliceIs F (Z.to_nat off) (Z.to_nat (dsSize s)) e /\ decB e = Ok raw /\ Z.of_nat (length raw) = dsSbs s /\ isBlocks bs raw bl /\ dsBlocks s <> [] /\ asc (dsBlocks s) /\
    (forall b, In b (dsBlocks s) -> 0 <= dbNo b < Z.of_nat (length bl)) /\ ws = map (fun b => (dbOff b, nth (Z.to_nat (dbNo b)) bl [])) (dsBlocks s).
  Definition sumSize (l : list dSuper) : Z := fold_right (fun s n => dsSize s + n) 0 l.
  Inductive supersOk (F : list Z) : Z -> list dSuper -> list (nat * list Z) -> Prop :=
  | so_nil off : supersOk F off [] []
  | so_cons off s l w ws : 0 <= off -> 0 <= dsSize s -> superOk F off s w -> supersOk F (off + dsSize s) l ws -> supersOk F off (s :: l) (w ++ ws).
  Definition readOk (r : dRead) (ws : list (nat * list Z)) : Prop := exists F, repo (drRef r) (drBundle r) = Some F /\ supersOk F (drOff r) (drSupers r) ws /\ drSize r = sumSize (drSupers r).
  Inductive readsOk : list dRead -> list (nat * list Z) -> Prop :=
  | ro_nil : readsOk [] []
  | ro_cons r l w ws : readOk r w -> readsOk l ws -> readsOk (r :: l) (w ++ ws).

  Lemma sumSize_app a b : sumSize (a ++ b) = sumSize a + sumSize b.
  Proof. induction a as [|x a IH]; cbn [app sumSize fold_right]; [reflexivity|]. fold (sumSize (a ++ b)) (sumSize a). rewrite IH. ring. Qed.
  Lemma supers_sum F off l ws : supersOk F off l ws -> 0 <= sumSize l.
  Proof. induction 1 as [|off s l w ws H0 H1 H2 H3 IH]; cbn [sumSize fold_right]; [lia|]. fold (sumSize l). lia. Qed.
  Lemma supersNext_ok F off l ws : supersOk F off l ws -> supersNext decB bs (firstn (Z.to_nat (sumSize l)) (skipn (Z.to_nat off) F)) l = Ok ws.
  Proof.
    induction 1 as [|off s l w ws H0 H1 H2 H3 IH]; [reflexivity|]. pose proof (supers_sum _ _ _ _ H3) as Hsum. cbn [supersNext sumSize fold_right]. fold (sumSize l). rewrite firstn_firstn, Nat.min_l by lia.
    destruct H2 as (e & raw & bl & (_ & <-) & D & L & B & Ne & A & In' & ->). rewrite D. cbn [bind]. destruct (dsBlocks s) as [|b r] eqn:Eb; [congruence|]. rewrite <- L, (blocks_len bs raw bl Hbs B), Nat2Z.id.
    rewrite (superLoop_spec bs bl raw 0 b r (length bl) B eq_refl); [|intros c Hc; specialize (In' c Hc); lia|left; split; [apply (In' b (or_introl eq_refl))|exact A]].
    destruct (Z.ltb_spec (dbNo b) 0) as [Q|Q]; [pose proof (In' b (or_introl eq_refl)); lia|]. rewrite skipn_firstn_comm, skipn_skipn'. 
    replace (Z.to_nat (dsSize s + sumSize l) - Z.to_nat (dsSize s))%nat with (Z.to_nat (sumSize l)) by lia. replace (Z.to_nat (dsSize s) + Z.to_nat off)%nat with (Z.to_nat (off + dsSize s)) by lia. rewrite IH. cbn [bind]. f_equal. f_equal.
    apply map_ext. intros c. now rewrite Z.sub_0_r.
  Qed.
  Lemma readsRun_ok reads ws : readsOk reads ws -> readsRun decB repo bs reads = Ok ws.
  Proof.
    induction 1 as [|r l w ws (F & E & S & Z0) H2 IH]; [reflexivity|]. cbn [readsRun]. rewrite E, Z0, (supersNext_ok _ _ _ _ S). cbn [bind]. rewrite IH. reflexivity.
  Qed.
  Lemma supers_snoc F l s : forall off ws, supersOk F off (l ++ [s]) ws -> exists w1 w2, ws = w1 ++ w2 /\ supersOk F off l w1 /\ 0 <= off + sumSize l /\ 0 <= dsSize s /\ superOk F (off + sumSize l) s w2.
  Proof.
    induction l as [|x l IH]; intros off ws H; inversion H as [|off' s' l' w ws' H0 H1 H2 H3]; subst.
    - inversion H3; subst. exists [], w. cbn. rewrite app_nil_r, Z.add_0_r. repeat split; auto. constructor.
    - destruct (IH _ _ H3) as (w1 & w2 & -> & S1 & P & Q & S2). exists (w ++ w1), w2. cbn [sumSize fold_right]. fold (sumSize l). rewrite Z.add_assoc, app_assoc. repeat split; auto. constructor; assumption.
  Qed.
  Lemma supers_snoc_i F l s w2 : forall off w1, supersOk F off l w1 -> 0 <= off + sumSize l -> 0 <= dsSize s -> superOk F (off + sumSize l) s w2 -> supersOk F off (l ++ [s]) (w1 ++ w2).
  Proof.
    induction l as [|x l IH]; intros off w1 H P Q S; inversion H as [|off' s' l' w ws' H0 H1 H2 H3]; subst.
    - cbn in *. rewrite Z.add_0_r in *. rewrite <- (app_nil_r w2). constructor; auto; constructor.
    - cbn [app]. rewrite <- app_assoc. cbn [sumSize fold_right] in *. fold (sumSize l) in *. rewrite Z.add_assoc in P, S. constructor; auto.
  Qed.
  Lemma reads_snoc R r : forall ws, readsOk (R ++ [r]) ws -> exists w1 w2, ws = w1 ++ w2 /\ readsOk R w1 /\ readOk r w2.
  Proof.
    induction R as [|x R IH]; intros ws H; inversion H as [|r' l' w ws' H1 H2]; subst.
    - inversion H2; subst. exists [], w. rewrite app_nil_r. repeat split; auto; constructor.
    - destruct (IH _ H2) as (w1 & w2 & -> & S1 & S2). exists (w ++ w1), w2. rewrite app_assoc. repeat split; auto. constructor; assumption.
  Qed.
  Lemma reads_snoc_i R r w2 : forall w1, readsOk R w1 -> readOk r w2 -> readsOk (R ++ [r]) (w1 ++ w2).
  Proof.
    induction R as [|x R IH]; intros w1 H S; inversion H as [|r' l' w ws' H1 H2]; subst.
    - cbn. rewrite <- (app_nil_r w2). constructor; auto; constructor.
    - cbn [app]. rewrite <- app_assoc. constructor; auto.
  Qed.

  Variable B : nat -> list Z.
  Definition good (p : nat * item) : Prop := holds decB repo bs (snd p) (B (fst p)) /\ 0 <= iOff (snd p) /\ 0 < iSize (snd p) /\ 0 <= iBlock (snd p).
  Definition wr (p : nat * item) : nat * list Z := ((fst p * bs)%nat, B (fst p)).
  Definition lastOk (reads : list dRead) (p : item) : Prop := exists R r S s bl b, reads = R ++ [r] /\ drSupers r = S ++ [s] /\ drRef r = iRef p /\ drBundle r = iBundle p /\
    drOff r + sumSize S = iOff p /\ dsSize s = iSize p /\ dsSbs s = iSbs p /\ dsBlocks s = bl ++ [b] /\ dbNo b = iBlock p.

  (** A super block with the one block of an item *)
  Lemma one_super p : good p -> exists F, repo (iRef (snd p)) (iBundle (snd p)) = Some F /\
    superOk F (iOff (snd p)) (mkDs (iSbs (snd p)) (iSize (snd p)) [mkDb (iBlock (snd p)) (fst p * bs)]) [wr p].
  Proof.
    intros ((F & e & raw & bl & E & Sl & D & L & Bl & N) & H1 & H2 & H3). exists F. split; [exact E|]. exists e, raw, bl. cbn [dsSize dsSbs dsBlocks].
    split; [exact Sl|]. split; [exact D|]. split; [exact L|]. split; [exact Bl|]. split; [discriminate|]. split; [intros [|? [|? ?]] a b post Ea; discriminate|].
    split; [|unfold wr; cbn; now rewrite (nth_error_nth _ _ [] N)]. intros b [<-|[]]. cbn. assert (Z.to_nat (iBlock (snd p)) < length bl)%nat by (apply nth_error_Some; congruence). lia.
  Qed.

  Lemma addReads_spec : forall l reads prior W, readsOk reads W -> (match prior with None => True | Some p => lastOk reads p end) -> Forall good l ->
    (forall pre a b post, match prior with None => [] | Some p => [p] end ++ map snd l = pre ++ a :: b :: post -> iRef a = iRef b /\ orderOk a b) ->
    readsOk (addReads bs reads prior l) (W ++ map wr l).
  Proof.
    induction l as [|(idx, x) l IH]; intros reads prior W HR HL G HO; [cbn; rewrite app_nil_r; exact HR|].
    pose proof (Forall_inv G) as Gx. apply Forall_inv_tail in G. destruct (one_super _ Gx) as (F & EF & SO). cbn [fst snd] in EF, SO. pose proof Gx as (Hx & X1 & X2 & X3). cbn [fst snd] in Hx, X1, X2, X3.
    cbn [addReads]. cbv zeta. change (map wr ((idx, x) :: l)) with ([wr (idx, x)] ++ map wr l). rewrite app_assoc.
    assert (HO' : forall pre a b post, [x] ++ map snd l = pre ++ a :: b :: post -> iRef a = iRef b /\ orderOk a b).
    { intros pre a b post E. destruct prior as [p|]; [apply (HO (p :: pre) a b post); cbn in *; now rewrite E|apply (HO pre a b post); exact E]. }
    destruct prior as [p|].
    - destruct (HO [] p x (map snd l) eq_refl) as (Rpx & Opx). destruct HL as (R & r & S & s & bl & b & -> & ES & ER & EB & EO & Esz & Esb & Ebl & Eb).
      destruct (reads_snoc _ _ _ HR) as (W1 & W2 & -> & HR1 & (F' & EF' & SF & Esum)). destruct Opx as (Ob & Oo & Oeq & Olt).
      assert (F' = F) by (rewrite ER, EB, Rpx, Ob in EF'; congruence). subst F'. rewrite ES in SF, Esum.
      destruct (Z.eqb_spec (iOff p) (iOff x)) as [Q|Q]; cbn [negb andb].
      + rewrite updLast_snoc, ES, updLast_snoc. apply IH; [|eexists R, _, S, _, _, _; split; [reflexivity|]; cbn [drSupers drRef drBundle drOff dsSize dsSbs dsBlocks]; split; [reflexivity|]|exact G|exact HO'].
        * destruct (supers_snoc _ _ _ _ _ SF) as (V1 & V2 & -> & SF1 & P & Q' & (e & raw & bk & Sl & D & L & Bk & Ne & A & In' & ->)). rewrite <- !app_assoc. apply reads_snoc_i; [exact HR1|]. exists F. cbn [drSupers drRef drBundle drOff drSize].
          split; [exact EF'|]. split; [|rewrite Esum, !sumSize_app; reflexivity]. apply supers_snoc_i; [exact SF1|exact P|exact Q'|]. exists e, raw, bk. cbn [dsSize dsSbs dsBlocks].
          split; [exact Sl|]. split; [exact D|]. split; [exact L|]. split; [exact Bk|]. split; [now destruct (dsBlocks s)|].
          destruct (Oeq Q) as (O1 & O2 & O3). rewrite Ebl. split; [rewrite Ebl in A; apply asc_snoc; [exact A|cbn; lia]|].
          destruct Hx as (F2 & e2 & raw2 & bk2 & E2 & Sl2 & D2 & L2 & Bk2 & N2). assert (F2 = F) by congruence. subst F2. rewrite EO, Q, Esz, O2 in Sl. destruct Sl as (_ & Sl). destruct Sl2 as (_ & Sl2). assert (e2 = e) by congruence. subst e2.
          assert (raw2 = raw) by congruence. subst raw2. pose proof (blocks_unique _ Hbs _ _ _ Bk Bk2) as <-. split.
          -- intros c Hc. apply in_app_iff in Hc. destruct Hc as [Hc|[<-|[]]]; [apply In'; now rewrite Ebl|]. cbn. assert (Z.to_nat (iBlock x) < length bk)%nat by (apply nth_error_Some; congruence). lia.
          -- rewrite (map_app _ (bl ++ [b])). f_equal. cbn. unfold wr. cbn. now rewrite (nth_error_nth _ _ [] N2).
        * destruct (Oeq Q) as (O1 & O2 & O3). rewrite ER, EB, EO, Esz, Esb. repeat split; auto; congruence.
      + assert (Lt : iOff p < iOff x) by lia. specialize (Olt Lt). destruct (Z.eqb_spec (iOff p + iSize p) (iOff x)) as [Q2|Q2]; cbn [negb].
        * rewrite updLast_snoc. cbn [drRef drBundle drOff drSize drSupers]. rewrite updLast_snoc. cbn [drRef drBundle drOff drSize drSupers]. rewrite updLast_snoc. cbn [dsSbs dsSize dsBlocks app].
          apply IH; [|eexists R, _, (S ++ [s]), _, [], _; split; [reflexivity|]; cbn [drSupers drRef drBundle drOff dsSize dsSbs dsBlocks]; split; [now rewrite ES|]|exact G|exact HO'].
          -- rewrite <- app_assoc. apply reads_snoc_i; [exact HR1|]. exists F. cbn [drSupers drRef drBundle drOff drSize]. split; [exact EF'|]. rewrite ES. split.
             ++ assert (EQ : drOff r + sumSize (S ++ [s]) = iOff x) by (rewrite sumSize_app; cbn; lia). apply supers_snoc_i; [exact SF|rewrite EQ; lia|cbn; lia|]. rewrite EQ. exact SO.
             ++ rewrite Esum, !sumSize_app. cbn. ring.
          -- rewrite sumSize_app. cbn. rewrite ER, EB. repeat split; auto; try congruence; lia.
        * rewrite updLast_snoc. cbn [drRef drBundle drOff drSize drSupers app]. rewrite updLast_snoc. cbn [drRef drBundle drOff drSize drSupers updLast dsSbs dsSize dsBlocks app].
          apply IH; [|eexists (R ++ [r]), _, [], _, [], _; split; [reflexivity|]; cbn [drSupers drRef drBundle drOff dsSize dsSbs dsBlocks]; split; [reflexivity|]|exact G|exact HO'].
          -- apply reads_snoc_i; [exact HR|]. exists F. cbn [drSupers drRef drBundle drOff drSize]. split; [exact EF|]. split; [|cbn; ring]. apply (supers_snoc_i _ [] _ _ _ []); [constructor|cbn; lia|cbn; lia|]. cbn [sumSize fold_right]. rewrite Z.add_0_r. exact SO.
          -- cbn. rewrite Z.add_0_r. repeat split; auto.
    - rewrite updLast_snoc. cbn [drRef drBundle drOff drSize drSupers app]. rewrite updLast_snoc. cbn [drRef drBundle drOff drSize drSupers updLast dsSbs dsSize dsBlocks app].
      apply IH; [|eexists reads, _, [], _, [], _; split; [reflexivity|]; cbn [drSupers drRef drBundle drOff dsSize dsSbs dsBlocks]; split; [reflexivity|]|exact G|exact HO'].
      + apply reads_snoc_i; [exact HR|]. exists F. cbn [drSupers drRef drBundle drOff drSize]. split; [exact EF|]. split; [|cbn; ring]. apply (supers_snoc_i _ [] _ _ _ []); [constructor|cbn; lia|cbn; lia|]. cbn [sumSize fold_right]. rewrite Z.add_0_r. exact SO.
      + cbn. rewrite Z.add_0_r. repeat split; auto.
  Qed.
End Reads.
