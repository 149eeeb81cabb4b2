From Verif Require Import Base Str ConvertModel ConvertProof BlockMapModel BlockMapProof BlockIncrModel.
Open Scope Z_scope.

(** * The map can always be written *)
Lemma wVar_ok v : exists t, wVar v = Ok t.
Proof. unfold wVar. destruct (roundtrip (u64 v)) as (t & E & _); [unfold isU64, u64, two64; lia|eauto]. Qed.
Ltac wvar := match goal with |- context [wVar ?v] => let t := fresh "t" in let E := fresh "E" in destruct (wVar_ok v) as (t & E); rewrite E; cbn [bind] end.
Lemma writeSbs_ok bs flags ref : forall gs rd sl cont, (forall g, In g gs -> g <> []) -> exists b rd' sl', writeSbs bs flags ref rd sl cont gs = Ok (b, rd', sl').
Proof.
  induction gs as [|g gs IH]; intros rd sl cont H; [cbn; eauto|]. destruct g as [|x g]; [exfalso; now apply (H [] (or_introl eq_refl))|]. cbn [writeSbs].
  assert (H' : forall g0, In g0 gs -> g0 <> []) by (intros g0 H0; apply H; now right).
  match goal with |- exists b rd' sl', bind ?X _ = _ => assert (H1 : exists b1 rd1, X = Ok (b1, rd1)) end.
  { destruct cont; [wvar; eauto|]. wvar. destruct (negb (iSbs x =? rdSbs rd)); [|eauto]. wvar. destruct (negb (iSbs x mod bs =? 0)); [wvar|cbn [bind]]; eauto. }
  destruct H1 as (b1 & rd1 & ->). cbn [bind]. clear H.
  match goal with |- exists b rd' sl', bind ?X _ = _ => assert (H2 : exists b2 rd2, X = Ok (b2, rd2)) end.
  { destruct (cont || negb (iBlock x =? 0) || negb (Z.of_nat (length (x :: g)) =? sbBlocks bs (iSbs x))); [|eauto]. wvar. destruct (0 <? u64 (iBlock x - rdBlock rd1)); [wvar|]; eauto. }
  destruct H2 as (b2 & rd2 & ->). cbn [bind].
  match goal with |- context [writeSbs bs flags ref ?a ?b ?c gs] => destruct (IH a b c H') as (b3 & rd3 & sl3 & ->) end. cbn [bind]. eauto.
Qed.
Lemma isRuns_nonempty key gs g : isRuns key gs -> In g gs -> g <> [].
Proof. induction gs as [|h gs IH]; intros R H; [destruct H|]. destruct R as ((x & h' & -> & _) & _ & R). destruct H as [<-|H]; [discriminate|auto]. Qed.
Lemma writeRefs_ok bs : forall gs refs sl, (forall g, In g gs -> g <> []) -> exists b, writeRefs bs refs sl gs = Ok b.
Proof.
  induction gs as [|g gs IH]; intros refs sl H; [cbn; eauto|]. destruct g as [|x g]; [exfalso; now apply (H [] (or_introl eq_refl))|]. cbn [writeRefs].
  assert (H' : forall g0, In g0 gs -> g0 <> []) by (intros g0 H0; apply H; now right).
  match goal with |- exists b, bind ?X _ = _ => assert (H1 : exists b rd fl c, X = Ok (b, rd, fl, c)) end.
  { destruct (refFind refs (iRef x)) as [rd|].
    - destruct (iOff x =? rdOff rd); [eauto 6|]. cbv zeta. wvar. destruct (_ <? _); [wvar|cbn [bind]]; eauto 6.
    - cbv zeta. wvar. destruct (0 <? iBundle x); [wvar|cbn [bind]]; (destruct (0 <? iOff x); [wvar|cbn [bind]]); eauto 6. }
  destruct H1 as (b & rd & fl & c & E). cbv zeta in E |- *. rewrite E. cbn [bind].
  destruct (writeSbs_ok bs fl (iRef x) (runs iOff (x :: g)) rd sl c) as (b2 & rd2 & sl2 & E2); [intros g0; apply isRuns_nonempty with (key := iOff); apply runs_isRuns|]. rewrite E2. cbn [bind].
  destruct (IH (refSet refs rd2) sl2 H') as (d & ->). cbn [bind]. eauto.
Qed.
Lemma blockMapWrite_ok bs m : exists w, blockMapWrite bs m = Ok w.
Proof.
  unfold blockMapWrite. wvar. destruct (writeRefs_ok bs (runs iRef m) [] 0) as (b & ->); [intros g; apply isRuns_nonempty with (key := iRef); apply runs_isRuns|]. cbn [bind]. eauto.
Qed.

Section Filter.
  Variable hash : list Z -> list Z.
  Variable encB encM : nat -> list Z -> list Z.
  Variables (sbs bs : nat) (ref bundle : Z).
  Variable prior : option (list item).
  Hypothesis Hbs : (0 < bs)%nat.
  Notation blockStep := (blockStep hash sbs bs ref bundle prior).
  Notation closeStep := (closeStep encB sbs).
  Notation mapStep := (mapStep encM bs prior).
  Notation inputStep := (inputStep bs).
  Notation incrLoop := (incrLoop hash encB encM sbs bs ref bundle prior).
  Notation incrProcess := (incrProcess hash encB encM sbs bs ref bundle prior).
  Notation feed := (feed hash encB encM sbs bs ref bundle prior).
  Notation feedAll := (feedAll hash encB encM sbs bs ref bundle prior).

  (** The state with what is still to be copied to the output appended to what has been *)
  Definition absOf (e : list Z) (s : bi) : bi :=
    mkBi (bBlk s) (bRaw s) (bList s) (bMap s) (bOffset s) (bSbNo s) (bOutSize s) (bNo s) (bMapWrite s) (bMapSize s) (bNonce s) (e ++ skipn (bOutOff s) (bOut s)) 0 0 false (bDone s).
  Definition addBlk (s : bi) (d : list Z) : bi :=
    mkBi (bBlk s ++ d) (bRaw s) (bList s) (bMap s) (bOffset s) (bSbNo s) (bOutSize s) (bNo s) (bMapWrite s) (bMapSize s) (bNonce s) (bOut s) (bOutOff s) (bInOff s) (bInSame s) (bDone s).
  Definition setDone (s : bi) (d : bool) : bi :=
    mkBi (bBlk s) (bRaw s) (bList s) (bMap s) (bOffset s) (bSbNo s) (bOutSize s) (bNo s) (bMapWrite s) (bMapSize s) (bNonce s) (bOut s) (bOutOff s) (bInOff s) (bInSame s) d.
  Definition wf (s : bi) : Prop := (length (bBlk s) < bs)%nat /\ (bRaw s <> None -> (bOutSize s < sbs)%nat).

  Lemma abs_block e s : absOf e (blockStep s) = blockStep (absOf e s).
  Proof.
    unfold BlockIncrModel.blockStep. cbn [absOf bDone bBlk bNo bRaw bList bMap]. destruct (_ || _); [|reflexivity].
    destruct (priorItem prior (bNo s)) as [it|]; [destruct (strEqb (iSum it) (hash (bBlk s)))|]; reflexivity.
  Qed.
  Lemma abs_close e s : (bOutOff s <= length (bOut s))%nat -> absOf e (closeStep s) = closeStep (absOf e s).
  Proof.
    intros H. unfold BlockIncrModel.closeStep. cbn [absOf bDone bRaw bOutSize]. destruct (bRaw s) as [r|]; [|reflexivity]. destruct (bDone s || (sbs <=? bOutSize s)%nat); [|reflexivity].
    unfold absOf. cbn. rewrite skipn_app. replace (bOutOff s - length (bOut s))%nat with O by lia. cbn [skipn]. now rewrite app_assoc.
  Qed.
  Lemma abs_map e s : bOutOff s = O -> mapStep (absOf e s) = let* s' := mapStep s in Ok (absOf e s').
  Proof.
    intros H. unfold BlockIncrModel.mapStep. cbn [absOf bDone bOutOff bMapWrite bMap]. rewrite H. destruct (_ && _ && _); [|reflexivity]. destruct (blockMapWrite (Z.of_nat bs) (bMap s)); cbn [bind]; [|reflexivity..].
    unfold absOf. cbn. rewrite H. cbn [skipn]. now rewrite app_assoc.
  Qed.
  Lemma block_noop s : bDone s = false -> (length (bBlk s) < bs)%nat -> blockStep s = s.
  Proof. intros H L. unfold BlockIncrModel.blockStep. rewrite H. destruct (Nat.eqb_spec (length (bBlk s)) bs); [lia|]. reflexivity. Qed.
  Lemma block_empty s : bBlk s = [] -> blockStep s = s.
  Proof. intros H. unfold BlockIncrModel.blockStep. rewrite H. destruct (Nat.eqb_spec (length (@nil Z)) bs) as [E|E]; [cbn in E; lia|]. cbn. rewrite andb_false_r. reflexivity. Qed.
  Lemma close_noop s : bDone s = false -> (bRaw s <> None -> (bOutSize s < sbs)%nat) -> closeStep s = s.
  Proof. intros H L. unfold BlockIncrModel.closeStep. destruct (bRaw s); [|reflexivity]. rewrite H. cbn [orb]. destruct (Nat.leb_spec sbs (bOutSize s)); [|reflexivity]. specialize (L ltac:(discriminate)). lia. Qed.
  Lemma map_noop s : bDone s = false -> mapStep s = Ok s.
  Proof. intros H. unfold BlockIncrModel.mapStep. now rewrite H. Qed.
  Lemma block_done s : bDone (blockStep s) = bDone s.
  Proof. unfold BlockIncrModel.blockStep. destruct (_ || _); [|reflexivity]. destruct (priorItem prior (bNo s)) as [it|]; [destruct (strEqb (iSum it) (hash (bBlk s)))|]; reflexivity. Qed.
  Lemma close_done s : bDone (closeStep s) = bDone s.
  Proof. unfold BlockIncrModel.closeStep. destruct (bRaw s); [|reflexivity]. destruct (_ || _); reflexivity. Qed.
  Lemma block_buf s : bOut (blockStep s) = bOut s /\ bOutOff (blockStep s) = bOutOff s /\ bInOff (blockStep s) = bInOff s /\ bInSame (blockStep s) = bInSame s.
  Proof. unfold BlockIncrModel.blockStep. destruct (_ || _); [|auto]. destruct (priorItem prior (bNo s)) as [it|]; [destruct (strEqb (iSum it) (hash (bBlk s)))|]; auto. Qed.
  Lemma close_buf s : bOutOff (closeStep s) = bOutOff s /\ bInOff (closeStep s) = bInOff s /\ bInSame (closeStep s) = bInSame s /\ bBlk (closeStep s) = bBlk s /\ (bRaw (closeStep s) <> None -> bOut (closeStep s) = bOut s).
  Proof. unfold BlockIncrModel.closeStep. destruct (bRaw s); [|auto 6]. destruct (_ || _); cbn; repeat split; auto; congruence. Qed.
  Lemma block_blk s : bBlk (blockStep s) = if (bDone s && negb (length (bBlk s) =? 0)%nat) || (length (bBlk s) =? bs)%nat then [] else bBlk s.
  Proof. unfold BlockIncrModel.blockStep. destruct (_ || _); [|reflexivity]. destruct (priorItem prior (bNo s)) as [it|]; [destruct (strEqb (iSum it) (hash (bBlk s)))|]; reflexivity. Qed.
  Lemma close_wf s : bDone s = false -> bRaw (closeStep s) <> None -> (bOutSize (closeStep s) < sbs)%nat.
  Proof. intros H. unfold BlockIncrModel.closeStep. destruct (bRaw s) eqn:E; [|congruence]. rewrite H. cbn [orb]. destruct (Nat.leb_spec sbs (bOutSize s)); [cbn; congruence|auto]. Qed.

  (** One byte after the other *)
  Definition absb (a : bi) (x : Z) : bi := closeStep (blockStep (addBlk a [x])).
  Definition absorb (a : bi) (d : list Z) : bi := fold_left absb d a.
  Lemma step_wf a d : bDone a = false -> (length (bBlk a) + length d <= bs)%nat -> wf (closeStep (blockStep (addBlk a d))) /\ bDone (closeStep (blockStep (addBlk a d))) = false.
  Proof.
    intros D L. split; [|now rewrite close_done, block_done]. split; [|apply close_wf; now rewrite block_done].
    destruct (close_buf (blockStep (addBlk a d))) as (_ & _ & _ & -> & _). rewrite block_blk. cbn [addBlk bDone bBlk]. rewrite D, app_length. cbn [andb orb]. destruct (Nat.eqb_spec (length (bBlk a) + length d) bs); [exact Hbs|]. rewrite app_length. lia.
  Qed.
  Lemma absorb_wf d : forall a, wf a -> bDone a = false -> wf (absorb a d) /\ bDone (absorb a d) = false.
  Proof. induction d as [|x d IH]; intros a W D; [split; assumption|]. cbn. destruct W as (W1 & W2). destruct (step_wf a [x] D) as (A & B); [cbn; lia|]. now apply IH. Qed.
  Lemma add_nil a : addBlk a [] = a.
  Proof. unfold addBlk. rewrite app_nil_r. now destruct a. Qed.
  Lemma add_add a d d' : addBlk (addBlk a d) d' = addBlk a (d ++ d').
  Proof. unfold addBlk. cbn. now rewrite app_assoc. Qed.
  Lemma absorb_fill : forall d a, wf a -> bDone a = false -> (length (bBlk a) + length d <= bs)%nat -> absorb a d = closeStep (blockStep (addBlk a d)).
  Proof.
    induction d as [|x d IH]; intros a (W1 & W2) D L.
    - rewrite add_nil, block_noop, close_noop by assumption. reflexivity.
    - cbn [absorb fold_left]. destruct d as [|y d]; [reflexivity|]. cbn [length] in L.
      assert (E : absb a x = addBlk a [x]). { unfold absb. rewrite block_noop; [|exact D|cbn; rewrite app_length; cbn; lia]. apply close_noop; auto. }
      rewrite E. fold (absorb (addBlk a [x]) (y :: d)). rewrite IH; [now rewrite add_add| |exact D|cbn; rewrite app_length; cbn in *; lia]. split; [cbn; rewrite app_length; cbn; lia|exact W2].
  Qed.
  Lemma absorb_app a d d' : absorb a (d ++ d') = absorb (absorb a d) d'.
  Proof. apply fold_left_app. Qed.

    Lemma flush_spec e s cap : (1 <= cap)%nat -> (bOutOff s <= length (bOut s))%nat -> (bRaw s <> None -> bOutOff s = length (bOut s)) ->
      let '(s', o) := flushStep s cap in absOf (e ++ o) s' = absOf e s /\
        ((bOutOff s = length (bOut s) /\ o = [] /\ s' = s) \/
         (bRaw s = None /\ o <> [] /\ (bOutOff s < length (bOut s))%nat /\ bInOff s' = bInOff s /\
          ((bOut s' = [] /\ bOutOff s' = O /\ bInSame s' = negb (bInOff s =? 0)%nat) \/ (bOut s' = bOut s /\ bOutOff s < bOutOff s' < length (bOut s') /\ bInSame s' = true)%nat))).
    Proof.
      intros Hc L R. unfold flushStep. destruct (bRaw s) as [r|] eqn:Er.
      - split; [now rewrite app_nil_r|]. left. split; [apply R; discriminate|auto].
      - destruct (Nat.eqb_spec (length (bOut s) - bOutOff s) 0) as [Z0|Z0]; [split; [now rewrite app_nil_r|]; left; split; [lia|auto]|].
        destruct (Nat.leb_spec (length (bOut s) - bOutOff s) cap) as [Le|Le].
        + split; [unfold absOf; cbn; rewrite Er, app_nil_r; reflexivity|]. right. split; [reflexivity|]. split; [intros E; apply (f_equal (@length Z)) in E; rewrite skipn_length in E; cbn in E; lia|]. split; [lia|]. split; [reflexivity|]. left. auto.
        + split.
          * unfold absOf. cbn. rewrite Er, <- app_assoc. f_equal. f_equal. rewrite <- (firstn_skipn cap (skipn (bOutOff s) (bOut s))) at 2. f_equal.
            assert (SS : forall (l : list Z) i j, skipn (i + j) l = skipn j (skipn i l)) by (clear; intros l i j; revert l; induction i as [|i IH]; intros [|x l]; cbn; auto; now destruct j). apply SS.
          * right. split; [reflexivity|]. split; [|split; [lia|]; split; [reflexivity|]; right; cbn; repeat split; lia].
            intros E. apply (f_equal (@length Z)) in E. rewrite firstn_length, skipn_length in E. cbn in E. lia.
    Qed.

  (** * One chunk *)
  Section Chunk.
    Variable c : list Z.
    Variable a0 : bi.                      (* the state before the chunk *)
    Hypothesis W0 : wf a0. Hypothesis D0 : bDone a0 = false.
    Definition A (k : nat) : bi := absorb a0 (firstn k c).
    Lemma A_wf k : wf (A k) /\ bDone (A k) = false.
    Proof. now apply absorb_wf. Qed.
    (** ready for input / flushing *)
    Definition P1 (k : nat) (e : list Z) (s : bi) : Prop := absOf e s = A k /\ bOut s = [] /\ bOutOff s = O /\ bInOff s = k /\ (k <= length c)%nat.
    Definition P2 (k : nat) (e : list Z) (s : bi) : Prop :=
      absOf e s = A k /\ bRaw s = None /\ (0 < bOutOff s < length (bOut s))%nat /\ ((bInOff s = k /\ (0 < k < length c)%nat) \/ (bInOff s = O /\ k = length c)) /\ bInSame s = true.
    Definition Q (k : nat) (e : list Z) (s : bi) : Prop :=
      absOf e s = A k /\ bOut s = [] /\ bOutOff s = O /\ bInOff s = (if (k <? length c)%nat then k else O) /\ bInSame s = (k <? length c)%nat /\ (k <= length c)%nat.
    Lemma abs_fields e s k : absOf e s = A k -> bBlk s = bBlk (A k) /\ bRaw s = bRaw (A k) /\ bOutSize s = bOutSize (A k) /\ bDone s = false.
    Proof. intros H. rewrite <- H. repeat split; try reflexivity. change (bDone s) with (bDone (absOf e s)). rewrite H. apply A_wf. Qed.
    (** one iteration of the loop *)
    Lemma iter1 k e s cap : P1 k e s -> (1 <= cap)%nat -> exists s1, mapStep (closeStep (blockStep (inputStep s c))) = Ok s1 /\ let '(s2, o) := flushStep s1 cap in
      exists k', (k <= k' <= length c)%nat /\ ((k < length c)%nat -> (k < k')%nat) /\ (Q k' (e ++ o) s2 \/ (P2 k' (e ++ o) s2 /\ o <> [] /\ (k < k')%nat)).
    Proof.
      intros (Ha & Ho & Hoo & Hi & Hk) Hc. destruct (abs_fields _ _ _ Ha) as (F1 & F2 & F3 & F4). destruct (A_wf k) as ((Wa & Wb) & Wd).
      set (remains := (bs - length (bBlk s))%nat). assert (Rm : (1 <= remains)%nat) by (unfold remains; rewrite F1; lia).
      set (k' := if (length c - k <=? remains)%nat then length c else (k + remains)%nat). set (d := firstn (k' - k) (skipn k c)).
      assert (Hk' : (k <= k' <= length c)%nat) by (unfold k'; destruct (Nat.leb_spec (length c - k) remains); lia). assert (Ld : length d = (k' - k)%nat) by (unfold d; rewrite firstn_length, skipn_length; lia).
      set (si := inputStep s c). assert (Si : si = mkBi (bBlk s ++ d) (bRaw s) (bList s) (bMap s) (bOffset s) (bSbNo s) (bOutSize s) (bNo s) (bMapWrite s) (bMapSize s) (bNonce s) (bOut s) (bOutOff s) (if (k' <? length c)%nat then k' else O) (k' <? length c)%nat (bDone s)).
      { unfold si, BlockIncrModel.inputStep. rewrite F4, Hoo, Hi. cbn [negb andb]. rewrite Nat.eqb_refl. fold remains. unfold k', d. destruct (Nat.leb_spec (length c - k) remains) as [Le|Le].
        - rewrite Nat.ltb_irrefl. f_equal. f_equal. unfold k'. destruct (Nat.leb_spec (length c - k) remains); [|lia]. rewrite firstn_all2; [reflexivity|rewrite skipn_length; lia].
        - destruct (Nat.ltb_spec (k + remains) (length c)); [|lia]. f_equal. f_equal. unfold k'. destruct (Nat.leb_spec (length c - k) remains); [lia|]. f_equal. lia. }
      assert (Ai : absOf e si = addBlk (A k) d) by (rewrite Si, <- Ha; unfold absOf, addBlk; cbn; now rewrite Hoo).
      assert (Lk : (length (bBlk (A k)) + length d <= bs)%nat) by (rewrite Ld, <- F1; unfold k'; unfold remains in *; destruct (Nat.leb_spec (length c - k) (bs - length (bBlk s))); lia).
      set (sc := closeStep (blockStep si)). assert (Bo : bOut (blockStep si) = [] /\ bOutOff (blockStep si) = O) by (destruct (block_buf si) as (-> & -> & _); rewrite Si; cbn; auto). destruct Bo as (Bo & Boo).
      assert (Ac : absOf e sc = A k').
      { unfold sc. rewrite abs_close by (rewrite Boo; lia). rewrite abs_block, Ai. rewrite <- absorb_fill; auto; [|split; assumption]. unfold A. rewrite <- absorb_app. f_equal. unfold d.
        rewrite <- (firstn_skipn k (firstn k' c)), firstn_firstn, Nat.min_l by lia. f_equal. rewrite skipn_firstn_comm. reflexivity. }
      destruct (abs_fields _ _ _ Ac) as (G1 & G2 & G3 & G4). exists sc. split; [now apply map_noop|].
      destruct (close_buf (blockStep si)) as (C1 & C2 & C3 & C4 & C5). fold sc in C1, C2, C3, C4, C5. destruct (block_buf si) as (_ & _ & B3 & B4).
      assert (E1 : bInOff sc = (if (k' <? length c)%nat then k' else O)) by (rewrite C2, B3, Si; reflexivity). assert (E2 : bInSame sc = (k' <? length c)%nat) by (rewrite C3, B4, Si; reflexivity). assert (E3 : bOutOff sc = O) by (rewrite C1; exact Boo).
      pose proof (flush_spec e sc cap Hc ltac:(lia)) as F. destruct (flushStep sc cap) as (s2 & o). destruct F as (FA & FB); [intros R; rewrite (C5 R), Bo; rewrite E3; reflexivity|].
      exists k'. split; [lia|]. split; [intros Lc; unfold k'; destruct (Nat.leb_spec (length c - k) remains); lia|].
      destruct FB as [(L0 & -> & ->)|(R0 & No & Lo & I2 & [(O1 & O2 & O3)|(O1 & O2 & O3)])].
      - left. split; [now rewrite FA|]. rewrite E3 in L0. split; [now destruct (bOut sc)|]. repeat split; auto; lia.
      - left. split; [now rewrite FA|]. split; [exact O1|]. split; [exact O2|]. split; [congruence|]. split; [|lia]. rewrite O3, E1. destruct (Nat.ltb_spec k' (length c)) as [L|L]; [|reflexivity].
        destruct (Nat.eqb_spec k' 0); [|reflexivity]. exfalso. unfold k' in *. destruct (Nat.leb_spec (length c - k) remains); lia.
      - assert (Kk : (k < k')%nat).
        { destruct (Nat.eq_dec k (length c)) as [Ek|]; [|unfold k'; destruct (Nat.leb_spec (length c - k) remains); lia]. exfalso. assert (Dn : d = []) by (destruct d; [reflexivity|cbn in Ld; lia]).
          assert (Bs : bBlk si = bBlk s) by (rewrite Si, Dn; cbn; apply app_nil_r). assert (Eo : bOut sc = []). { unfold sc. rewrite block_noop by (rewrite ?Bs, ?F1; try (rewrite Si; exact F4); lia). rewrite close_noop; [rewrite Si; exact Ho|rewrite Si; exact F4|]. rewrite Si. cbn. rewrite F2, F3. exact Wb. }
          rewrite Eo in Lo. cbn in Lo. lia. }
        right. split; [|split; [exact No|exact Kk]]. split; [now rewrite FA|]. rewrite E3 in O2.
        assert (R2 : bRaw s2 = None). { change (bRaw s2) with (bRaw (absOf (e ++ o) s2)). now rewrite FA. }
        split; [exact R2|]. split; [lia|]. split; [|exact O3]. rewrite I2, E1. destruct (Nat.ltb_spec k' (length c)); [left; split; [reflexivity|]|right; split; [reflexivity|lia]].
        split; [|lia]. unfold k' in *. destruct (Nat.leb_spec (length c - k) remains); lia.
    Qed.
    Lemma iter2 k e s cap : P2 k e s -> (1 <= cap)%nat -> exists s1, mapStep (closeStep (blockStep (inputStep s c))) = Ok s1 /\ let '(s2, o) := flushStep s1 cap in
      o <> [] /\ (Q k (e ++ o) s2 \/ (P2 k (e ++ o) s2 /\ (length (bOut s2) - bOutOff s2 < length (bOut s) - bOutOff s)%nat)).
    Proof.
      intros (Ha & Hr & Ho & Hi & Hs) Hc. destruct (abs_fields _ _ _ Ha) as (F1 & F2 & F3 & F4). destruct (A_wf k) as ((Wa & Wb) & Wd).
      assert (Ei : inputStep s c = s). { unfold BlockIncrModel.inputStep. rewrite F4. destruct (Nat.eqb_spec (bOutOff s) 0); [lia|]. reflexivity. }
      rewrite Ei, block_noop, close_noop, map_noop by (try assumption; try congruence; rewrite F1; lia). exists s. split; [reflexivity|].
      pose proof (flush_spec e s cap Hc ltac:(lia) ltac:(congruence)) as F. destruct (flushStep s cap) as (s2 & o). destruct F as (FA & [(L0 & _)|(R0 & No & Lo & I2 & [(O1 & O2 & O3)|(O1 & O2 & O3)])]); [lia|split; [exact No|]..].
      - left. split; [now rewrite FA|]. split; [exact O1|]. split; [exact O2|]. rewrite I2, O3. destruct Hi as [(-> & Hi)|(-> & ->)].
        + destruct (Nat.ltb_spec k (length c)); [|lia]. split; [reflexivity|]. split; [|lia]. destruct (Nat.eqb_spec k 0); [lia|reflexivity].
        + rewrite Nat.ltb_irrefl. repeat split; lia.
      - right. split; [|rewrite O1; lia]. split; [now rewrite FA|]. split; [change (bRaw s2) with (bRaw (absOf (e ++ o) s2)); now rewrite FA|]. split; [lia|]. split; [now rewrite I2|exact O3].
    Qed.

    Lemma Q_P1 k e s : Q k e s -> (k < length c)%nat -> P1 k e s /\ bInSame s = true.
    Proof. intros (H1 & H2 & H3 & H4 & H5 & H6) L. destruct (Nat.ltb_spec k (length c)); [|lia]. split; [|exact H5]. repeat split; auto; lia. Qed.

    (** one call *)
    Lemma loop1 : forall n k e s used cap fuel, (length c - k <= n)%nat -> (n < fuel)%nat -> P1 k e s -> (1 <= cap)%nat -> exists s2 o, incrLoop fuel s c used cap = Ok (s2, o) /\
      exists k', (k <= k' <= length c)%nat /\ ((k < length c)%nat -> (k < k')%nat) /\ (Q k' (e ++ o) s2 \/ P2 k' (e ++ o) s2 /\ (k < k')%nat).
    Proof.
      induction n as [|n IH]; intros k e s used cap fuel Hn Hf HP Hc; (destruct fuel as [|fuel]; [lia|]); cbn [BlockIncrModel.incrLoop]; destruct (iter1 k e s cap HP Hc) as (s1 & -> & F); cbn [bind];
        destruct (flushStep s1 cap) as (s2 & o) eqn:Ef; destruct F as (k' & K1 & K2 & K3).
      - assert (St : bInSame s2 && negb (used || negb (length o =? 0)%nat) = false).
        { destruct K3 as [(_ & _ & _ & _ & Q5 & _)|(_ & No & _)]; [rewrite Q5; destruct (Nat.ltb_spec k' (length c)); [lia|reflexivity]|]. destruct o; [congruence|]. cbn. rewrite orb_true_r. apply andb_false_r. }
        rewrite St. exists s2, o. split; [reflexivity|]. exists k'. split; [exact K1|]. split; [exact K2|]. tauto.
      - destruct (bInSame s2 && negb (used || negb (length o =? 0)%nat)) eqn:St; [|exists s2, o; split; [reflexivity|]; exists k'; tauto].
        apply andb_true_iff in St. destruct St as (S1 & S2). apply negb_true_iff, orb_false_iff in S2. destruct S2 as (_ & S2). apply negb_false_iff, Nat.eqb_eq in S2.
        destruct o; [|discriminate]. rewrite app_nil_r in K3. destruct K3 as [K3|(_ & No & _)]; [|congruence]. pose proof K3 as (_ & _ & _ & _ & Q5 & _). rewrite Q5 in S1. apply Nat.ltb_lt in S1.
        destruct (Q_P1 _ _ _ K3 S1) as (P' & _). assert (Kk : (k < k')%nat) by (apply K2; lia).
        destruct (IH k' e s2 used cap fuel ltac:(lia) ltac:(lia) P' Hc) as (s3 & o3 & E3 & k3 & L3 & L4 & R3). exists s3, o3. split; [exact E3|]. exists k3. split; [lia|]. split; [lia|]. destruct R3 as [R3|(R3 & _)]; [now left|right; split; [exact R3|lia]].
    Qed.
    Lemma loop2 k e s used cap fuel : P2 k e s -> (1 <= cap)%nat -> exists s2 o, incrLoop (S fuel) s c used cap = Ok (s2, o) /\ (Q k (e ++ o) s2 \/ (P2 k (e ++ o) s2 /\ (length (bOut s2) - bOutOff s2 < length (bOut s) - bOutOff s)%nat)).
    Proof.
      intros HP Hc. cbn [BlockIncrModel.incrLoop]. destruct (iter2 k e s cap HP Hc) as (s1 & -> & F). cbn [bind]. destruct (flushStep s1 cap) as (s2 & o) eqn:Ef. destruct F as (No & F). destruct o; [congruence|].
      cbn [length Nat.eqb negb]. rewrite orb_true_r. cbn [negb]. rewrite andb_false_r. eauto.
    Qed.
    Lemma process_chunk s used cap : bDone s = false -> incrProcess s (Some c) used cap = incrLoop (S (S (length c))) s c used cap.
    Proof. intros H. unfold BlockIncrModel.incrProcess. f_equal. rewrite <- H. now destruct s. Qed.

    (** all calls *)
    Variable out : nat -> bool * nat.
    Hypothesis Hout : forall n, (1 <= snd (out n))%nat.
    Lemma feed_chunk : forall m p k e s n, (length c - k <= m)%nat -> (length (bOut s) - bOutOff s <= p)%nat -> P1 k e s \/ P2 k e s ->
      exists f s' o n', Q (length c) (e ++ o) s' /\ forall fuel', (f <= fuel')%nat -> feed fuel' out n s (Some c) = Ok (s', o, n').
    Proof.
      induction m as [m IHm] using lt_wf_ind. induction p as [p IHp] using lt_wf_ind. intros k e s n Hm Hp HP.
      assert (Step : exists s2 o, incrProcess s (Some c) (fst (out n)) (snd (out n)) = Ok (s2, o) /\
         (Q (length c) (e ++ o) s2 \/ (bInSame s2 = true /\ exists k', (P1 k' (e ++ o) s2 \/ P2 k' (e ++ o) s2) /\ ((length c - k' < length c - k)%nat \/ (k' = k /\ (length (bOut s2) - bOutOff s2 < length (bOut s) - bOutOff s)%nat))))).
      { destruct HP as [HP|HP].
        - assert (D : bDone s = false) by (destruct HP as (Ha & _); now apply abs_fields in Ha). rewrite process_chunk by exact D.
          destruct (loop1 (length c - k) k e s (fst (out n)) (snd (out n)) (S (S (length c))) ltac:(lia) ltac:(lia) HP (Hout n)) as (s2 & o & E & k' & L1 & L2 & [Hq|(Hp2 & Hk2)]); exists s2, o; (split; [exact E|]).
          + destruct (Nat.eq_dec k' (length c)) as [->|Ne]; [now left|]. right. destruct (Q_P1 _ _ _ Hq ltac:(lia)) as (Hq1 & Hs). split; [exact Hs|]. exists k'. split; [now left|]. left. lia.
          + right. split; [now destruct Hp2 as (_ & _ & _ & _ & ?)|]. exists k'. split; [now right|]. left. lia.
        - assert (D : bDone s = false) by (destruct HP as (Ha & _); now apply abs_fields in Ha). rewrite process_chunk by exact D.
          destruct (loop2 k e s (fst (out n)) (snd (out n)) (S (length c)) HP (Hout n)) as (s2 & o & E & [Hq|(Hp2 & Hd)]); exists s2, o; (split; [exact E|]).
          + destruct (Nat.eq_dec k (length c)) as [->|Ne]; [now left|]. right. pose proof Hq as (_ & _ & _ & _ & _ & Lk). destruct (Q_P1 _ _ _ Hq ltac:(lia)) as (Hq1 & Hs). split; [exact Hs|]. exists k. split; [now left|]. right. split; [reflexivity|].
            destruct Hq1 as (_ & -> & -> & _). destruct HP as (_ & _ & HP & _). cbn. lia.
          + right. split; [now destruct Hp2 as (_ & _ & _ & _ & ?)|]. exists k. split; [now right|]. right. auto. }
      destruct Step as (s2 & o & E & [Hq|(Hs & k' & HP' & Dec)]).
      - exists 1%nat, s2, o, (S n). split; [exact Hq|]. intros fuel Hf. destruct fuel as [|fuel]; [lia|]. cbn [BlockIncrModel.feed]. rewrite E. cbn [bind]. destruct Hq as (_ & _ & _ & _ & Hs & _). rewrite Nat.ltb_irrefl in Hs. now rewrite Hs.
      - assert (R : exists f s' o' n', Q (length c) ((e ++ o) ++ o') s' /\ forall fuel', (f <= fuel')%nat -> feed fuel' out (S n) s2 (Some c) = Ok (s', o', n')).
        { destruct Dec as [Dec|(-> & Dec)].
          - apply (IHm (length c - k')%nat ltac:(lia) (length (bOut s2) - bOutOff s2)%nat k'); auto.
          - apply (IHp (length (bOut s2) - bOutOff s2)%nat ltac:(lia) k); auto. }
        destruct R as (f & s' & o' & n' & Hq & Hf). exists (S f), s', (o ++ o'), n'. split; [now rewrite app_assoc|]. intros fuel Hl. destruct fuel as [|fuel]; [lia|]. cbn [BlockIncrModel.feed]. rewrite E. cbn [bind]. rewrite Hs, Hf by lia. reflexivity.
    Qed.
  End Chunk.

  (** * The end of the file *)
  Definition finish (a : bi) : res bi := mapStep (closeStep (blockStep (setDone a true))).
  Lemma finish_ok a : exists f, finish a = Ok f.
  Proof. unfold finish, BlockIncrModel.mapStep. destruct (_ && _ && _); [|eauto]. destruct (blockMapWrite_ok (Z.of_nat bs) (bMap (closeStep (blockStep (setDone a true))))) as (w & ->). cbn [bind]. eauto. Qed.

  Section End.
    Variable out : nat -> bool * nat.
    Hypothesis Hout : forall n, (1 <= snd (out n))%nat.
    Definition flushing (e : list Z) (s : bi) (f : bi) : Prop := absOf e s = f /\ bDone s = true /\ bBlk s = [] /\ bRaw s = None /\ (0 < bOutOff s < length (bOut s))%nat /\ bInOff s = O /\ bInSame s = true.
    Definition ended (e : list Z) (s : bi) (f : bi) : Prop := absOf e s = f /\ bOut s = [] /\ bInSame s = false.
    Lemma process_none s used cap : incrProcess s None used cap = incrLoop 2 (setDone s true) [] used cap.
    Proof. reflexivity. Qed.
    Lemma set_done s : bDone s = true -> setDone s true = s.
    Proof. intros H. unfold setDone. rewrite <- H. now destruct s. Qed.
    Lemma flush_end e s cap : bRaw s = None -> bInOff s = O -> (bOutOff s <= length (bOut s))%nat -> (1 <= cap)%nat -> let '(s', o) := flushStep s cap in
      absOf (e ++ o) s' = absOf e s /\ bDone s' = bDone s /\ bBlk s' = bBlk s /\ bRaw s' = None /\ bInOff s' = O /\
      ((bOutOff s = length (bOut s) /\ s' = s /\ o = []) \/ (o <> [] /\ bOut s' = [] /\ bInSame s' = false) \/ (o <> [] /\ bInSame s' = true /\ (0 < bOutOff s' < length (bOut s'))%nat /\ (length (bOut s') - bOutOff s' < length (bOut s) - bOutOff s)%nat)).
    Proof.
      intros Hr Hi Ho Hc. pose proof (flush_spec e s cap Hc Ho ltac:(congruence)) as F. destruct (flushStep s cap) as (s' & o). destruct F as (FA & FB). pose proof (f_equal bDone FA) as F1. pose proof (f_equal bBlk FA) as F2. pose proof (f_equal bRaw FA) as F3. cbn in F1, F2, F3.
      split; [exact FA|]. split; [exact F1|]. split; [exact F2|]. split; [congruence|]. destruct FB as [(L0 & -> & ->)|(R0 & No & Lo & I2 & [(O1 & O2 & O3)|(O1 & O2 & O3)])].
      - split; [exact Hi|]. left. auto.
      - split; [congruence|]. right. left. rewrite O3, Hi. auto.
      - split; [congruence|]. right. right. rewrite O1 in O2 |- *. repeat split; auto; lia.
    Qed.
    Lemma feed_flush : forall p e s n f, flushing e s f -> (length (bOut s) - bOutOff s <= p)%nat -> exists fl s' o n', ended (e ++ o) s' f /\ forall fuel, (fl <= fuel)%nat -> feed fuel out n s None = Ok (s', o, n').
    Proof.
      induction p as [p IH] using lt_wf_ind. intros e s n f (H1 & H2 & H3 & H4 & H5 & H6 & H7) Hp.
      assert (St : mapStep (closeStep (blockStep (inputStep (setDone s true) []))) = Ok s).
      { rewrite set_done by exact H2. unfold BlockIncrModel.inputStep. rewrite H2. cbn [negb andb]. rewrite block_empty by exact H3.
        unfold BlockIncrModel.closeStep. rewrite H4. unfold BlockIncrModel.mapStep. destruct (Nat.eqb_spec (bOutOff s) 0); [lia|]. destruct (bDone s); reflexivity. }
      pose proof (flush_end e s (snd (out n)) H4 H6 ltac:(lia) (Hout n)) as F. destruct (flushStep s (snd (out n))) as (s2 & o) eqn:Ef. destruct F as (F1 & F2 & F3 & F4 & F5 & F6).
      assert (Pr : o <> [] -> incrProcess s None (fst (out n)) (snd (out n)) = Ok (s2, o)).
      { intros No. rewrite process_none. cbn [BlockIncrModel.incrLoop]. rewrite St. cbn [bind]. rewrite Ef. destruct o; [congruence|]. cbn [length Nat.eqb negb]. rewrite orb_true_r. cbn [negb]. now rewrite andb_false_r. }
      destruct F6 as [(L0 & _)|[(No & O1 & O2)|(No & O1 & O2 & O3)]]; [lia| |].
      - exists 1%nat, s2, o, (S n). split; [split; [now rewrite F1|auto]|]. intros fuel Hf. destruct fuel as [|fuel]; [lia|]. cbn [BlockIncrModel.feed]. rewrite Pr by exact No. cbn [bind]. now rewrite O2.
      - destruct (IH (length (bOut s2) - bOutOff s2)%nat ltac:(lia) (e ++ o) s2 (S n) f) as (fl & s' & o' & n' & E' & F'); [repeat split; auto; try congruence; lia|lia|].
        exists (S fl), s', (o ++ o'), n'. split; [now rewrite app_assoc|]. intros fuel Hf. destruct fuel as [|fuel]; [lia|]. cbn [BlockIncrModel.feed]. rewrite Pr by exact No. cbn [bind]. rewrite O1, F' by lia. reflexivity.
    Qed.
    Lemma feed_end e s n a f : absOf e s = a -> bDone a = false -> (length (bBlk a) < bs)%nat -> bOut s = [] -> bOutOff s = O -> bInOff s = O -> bInSame s = false -> finish a = Ok f ->
      exists fl s' o n', ended (e ++ o) s' f /\ forall fuel, (fl <= fuel)%nat -> feed fuel out n s None = Ok (s', o, n').
    Proof.
      intros Ha Da La Ho Hoo Hi Hs Hf. set (sd := setDone s true). assert (Ad : absOf e sd = setDone a true) by (now rewrite <- Ha).
      assert (Ei : inputStep sd [] = sd) by reflexivity. set (sc := closeStep (blockStep sd)). assert (Bo : bOut (blockStep sd) = [] /\ bOutOff (blockStep sd) = O) by (destruct (block_buf sd) as (-> & -> & _); auto). destruct Bo as (Bo & Boo).
      assert (Ac : absOf e sc = closeStep (blockStep (setDone a true))) by (unfold sc; rewrite abs_close by (rewrite Boo; lia); now rewrite abs_block, Ad).
      destruct (close_buf (blockStep sd)) as (C1 & C2 & C3 & C4 & C5). fold sc in C1, C2, C3, C4, C5. destruct (block_buf sd) as (_ & _ & B3 & B4).
      assert (Eo : bOutOff sc = O) by congruence. assert (Em : mapStep (absOf e sc) = Ok f) by (rewrite Ac; exact Hf). rewrite abs_map in Em by exact Eo. destruct (mapStep sc) as [sm| |] eqn:Esm; cbn [bind] in Em; try discriminate. injection Em as Em.
      assert (Dc : bDone sc = true) by (unfold sc; now rewrite close_done, block_done).
      assert (Rc : bRaw sc = None) by (unfold sc, BlockIncrModel.closeStep; rewrite block_done; destruct (bRaw (blockStep sd)) eqn:E; [reflexivity|exact E]).
      assert (Bc : bBlk sc = []). { rewrite C4, block_blk. cbn. destruct (bBlk s) eqn:Eb; [|reflexivity]. cbn. now destruct bs. }
      assert (Sm : bDone sm = true /\ bBlk sm = [] /\ bRaw sm = None /\ bInOff sm = O /\ bInSame sm = false /\ bOutOff sm = O).
      { unfold BlockIncrModel.mapStep in Esm. assert (Z1 : bInOff sc = O) by (rewrite C2, B3; exact Hi). assert (Z2 : bInSame sc = false) by (rewrite C3, B4; exact Hs).
        destruct (_ && _ && _); [|injection Esm as <-; auto 8]. destruct (blockMapWrite (Z.of_nat bs) (bMap sc)); cbn [bind] in Esm; try discriminate. injection Esm as <-. cbn. auto 8. }
      destruct Sm as (M1 & M2 & M3 & M4 & M5 & M6).
      pose proof (flush_end e sm (snd (out n)) M3 M4 ltac:(lia) (Hout n)) as F. destruct (flushStep sm (snd (out n))) as (s2 & o) eqn:Ef. destruct F as (F1 & F2 & F3 & F4 & F5 & F6).
      assert (Pr : bInSame s2 = false \/ o <> [] -> incrProcess s None (fst (out n)) (snd (out n)) = Ok (s2, o)).
      { intros No. rewrite process_none. fold sd. cbn [BlockIncrModel.incrLoop]. rewrite Ei. fold sc. rewrite Esm. cbn [bind]. rewrite Ef. destruct No as [->|No]; [reflexivity|]. destruct o; [congruence|]. cbn [length Nat.eqb negb]. rewrite orb_true_r. cbn [negb]. now rewrite andb_false_r. }
      destruct F6 as [(L0 & -> & ->)|[(No & O1 & O2)|(No & O1 & O2 & O3)]].
      - exists 1%nat, sm, [], (S n). split; [split; [now rewrite app_nil_r|]; rewrite M6 in L0; split; [now destruct (bOut sm)|exact M5]|]. intros fuel Hl. destruct fuel as [|fuel]; [lia|]. cbn [BlockIncrModel.feed]. rewrite Pr by now left. cbn [bind]. now rewrite M5.
      - exists 1%nat, s2, o, (S n). split; [split; [congruence|auto]|]. intros fuel Hl. destruct fuel as [|fuel]; [lia|]. cbn [BlockIncrModel.feed]. rewrite Pr by now left. cbn [bind]. now rewrite O2.
      - destruct (feed_flush (length (bOut s2) - bOutOff s2)%nat (e ++ o) s2 (S n) f) as (fl & s' & o' & n' & E' & F'); [repeat split; try congruence; lia|lia|].
        exists (S fl), s', (o ++ o'), n'. split; [now rewrite app_assoc|]. intros fuel Hl. destruct fuel as [|fuel]; [lia|]. cbn [BlockIncrModel.feed]. rewrite Pr by now right. cbn [bind]. rewrite O1, F' by lia. reflexivity.
    Qed.

    Lemma feed_all : forall chunks e s n a f, absOf e s = a -> wf a -> bDone a = false -> bOut s = [] -> bOutOff s = O -> bInOff s = O -> bInSame s = false -> finish (absorb a (concat chunks)) = Ok f ->
      exists fl s' o, ended (e ++ o) s' f /\ forall fuel, (fl <= fuel)%nat -> feedAll fuel out n s chunks = Ok (s', o).
    Proof.
      induction chunks as [|c chunks IH]; intros e s n a f Ha Wa Da Ho Hoo Hi Hs Hf.
      - destruct (feed_end e s n a f Ha Da (proj1 Wa) Ho Hoo Hi Hs Hf) as (fl & s' & o & n' & E & F). exists fl, s', o. split; [exact E|]. intros fuel Hl. cbn [BlockIncrModel.feedAll]. rewrite F by exact Hl. reflexivity.
      - destruct (feed_chunk c a Wa Da out Hout (length c) (length (bOut s) - bOutOff s)%nat 0%nat e s n ltac:(lia) ltac:(lia)) as (fl & s' & o & n' & (Q1 & Q2 & Q3 & Q4 & Q5 & Q6) & F).
        { left. split; [exact Ha|]. repeat split; auto; lia. }
        rewrite Nat.ltb_irrefl in Q4, Q5. unfold A in Q1. rewrite firstn_all in Q1. cbn [concat] in Hf. rewrite absorb_app in Hf. destruct (absorb_wf c a Wa Da) as (W' & D').
        destruct (IH (e ++ o) s' n' _ f Q1 W' D' Q2 Q3 Q4 Q5 Hf) as (fl2 & s2 & o2 & E2 & F2). exists (Nat.max fl fl2), s2, (o ++ o2). split; [now rewrite app_assoc|]. intros fuel Hl. cbn [BlockIncrModel.feedAll].
        rewrite F by lia. cbn [bind]. rewrite F2 by lia. reflexivity.
    Qed.
  End End.

  (** The result of the filter as a function of the bytes *)
  Lemma run_spec off data : exists f, finish (absorb (incrNew off) data) = Ok f /\ forall chunks out, concat chunks = data -> (forall n, (1 <= snd (out n))%nat) ->
    exists fl, forall fuel, (fl <= fuel)%nat -> incrRun hash encB encM sbs bs ref bundle prior fuel out off chunks = Ok (bOut f, bMapSize f).
  Proof.
    destruct (finish_ok (absorb (incrNew off) data)) as (f & Hf). exists f. split; [exact Hf|]. intros chunks out <- Hout.
    destruct (feed_all out Hout chunks [] (incrNew off) 0%nat (incrNew off) f) as (fl & s' & o & (E1 & E2 & E3) & F); try reflexivity; try exact Hf.
    - split; [exact Hbs|]. cbn. congruence.
    - exists fl. intros fuel Hl. unfold incrRun. rewrite F by exact Hl. cbn [bind app] in *. rewrite <- E1. unfold absOf. cbn. rewrite E2. rewrite skipn_nil, app_nil_r. reflexivity.
  Qed.
End Filter.
