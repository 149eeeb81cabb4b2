From Coq Require Import Permutation.
From Verif Require Import Base Str BlockMapModel BlockMapSpec BlockMapProof2 BlockIncrModel BlockIncrSpec BlockCheckProof RestoreFileModel RestoreFileSpec RestoreFileProof RestoreFileProof2.
Open Scope Z_scope.

Lemma concat_map' {A B} (f : A -> B) l : concat (map (map f) l) = map f (concat l).
Proof. symmetry. apply concat_map. Qed.

Section Restore.
  Variable hash sha1 : list Z -> list Z.
  Variable decB decM decF : list Z -> res (list Z).
  Variable repo : Z -> Z -> option (list Z).
  Variables bs cs : nat.
  Hypothesis Hbs : (0 < bs)%nat.
  Hypothesis Hcs : (0 < cs)%nat.
  Hypothesis Hhash : forall b, length (hash b) = cs.

  Lemma changed_in sums m i x : In (i, x) (changedBlocks cs sums m) <-> nth_error m i = Some x /\ blockChanged cs sums i x = true.
  Proof.
    unfold changedBlocks. rewrite filter_In. cbn [fst snd]. assert (G : forall (l : list item) k, In (i, x) (combine (seq k (length l)) l) <-> (k <= i)%nat /\ nth_error l (i - k) = Some x).
    { induction l as [|y l IH]; intros k; cbn; [split; [intros []|intros (_ & H); destruct (i - k)%nat; discriminate]|]. rewrite IH. split.
      - intros [[= -> ->]|(H1 & H2)]; [rewrite Nat.sub_diag; auto|]. split; [lia|]. replace (i - k)%nat with (S (i - S k)) by lia. exact H2.
      - intros (H1 & H2). destruct (Nat.eq_dec k i) as [->|N]; [rewrite Nat.sub_diag in H2; cbn in H2; left; congruence|]. right. split; [lia|]. replace (i - k)%nat with (S (i - S k)) in H2 by lia. exact H2. }
    rewrite G, Nat.sub_0_r. split; intros (H1 & H2); [tauto|]. split; [split; [lia|assumption]|assumption].
  Qed.

  Lemma delta_reads m v bl sums : mapOk cs m -> isBlocks bs v bl -> length m = length bl ->
    (forall i x b, nth_error m i = Some x -> nth_error bl i = Some b -> holds decB repo bs x b) ->
    exists W, readsOk decB repo bs (blockDeltaNew bs cs m sums) W /\ Permutation W (map (wr bs (fun i => nth i bl [])) (changedBlocks cs sums m)).
  Proof.
    intros (MI & MP) Bk Lm Hh. set (B := fun i => nth i bl []). set (L := changedBlocks cs sums m). destruct (refGroups_spec L) as (G1 & _ & _ & G4).
    assert (Gd : forall p, In p L -> good decB repo bs B p).
    { intros (i, x) Hp. apply changed_in in Hp. destruct Hp as (Hp & _). rewrite Forall_forall in MI. destruct (MI x (nth_error_In _ _ Hp)) as (_ & _ & _ & I4 & I5 & _ & I7 & _). unfold good. cbn [fst snd]. split; [|lia].
      assert (N : nth_error bl i <> None) by (apply nth_error_Some; rewrite <- Lm; apply nth_error_Some; congruence). destruct (nth_error bl i) as [b|] eqn:Eb; [|congruence]. unfold B. rewrite (nth_error_nth _ _ [] Eb). eapply Hh; eassumption. }
    assert (K : forall G reads W0, (forall r g, In (r, g) G -> g = filter (refIs r) L) -> readsOk decB repo bs reads W0 ->
      readsOk decB repo bs (fold_left (fun reads g => addReads bs reads None (snd g)) G reads) (W0 ++ concat (map (fun g => map (wr bs B) (snd g)) G))).
    { induction G as [|(r, g) G IH]; intros reads W0 HG HR; [cbn; rewrite app_nil_r; exact HR|]. cbn [fold_left map concat snd]. rewrite app_assoc. apply IH; [intros r' g' Hin; apply HG; now right|].
      pose proof (HG r g (or_introl eq_refl)) as Eg. apply addReads_spec; auto.
      - apply Forall_forall. intros p Hp. apply Gd. rewrite Eg in Hp. now apply filter_In in Hp.
      - intros pre a b post E. cbn [app] in E. destruct (map_split2 _ _ _ _ _ _ E) as (pre' & a' & b' & post' & Eg2 & <- & <-).
        assert (Rf : forall p, In p g -> iRef (snd p) = r) by (intros p Hp; rewrite Eg in Hp; apply filter_In in Hp; destruct Hp as (_ & Hp); now apply Z.eqb_eq in Hp).
        assert (Ra : iRef (snd a') = r) by (apply Rf; rewrite Eg2; apply in_app_iff; right; now left). assert (Rb : iRef (snd b') = r) by (apply Rf; rewrite Eg2; apply in_app_iff; right; right; now left).
        split; [congruence|]. rewrite Eg in Eg2. destruct (filter_split2 _ _ _ _ _ _ Eg2) as (p1 & p2 & p3 & EL). unfold L, changedBlocks in EL.
        assert (EL' : exists q1 q2 q3, combine (seq 0 (length m)) m = q1 ++ a' :: q2 ++ b' :: q3).
        { clear -EL. revert EL. generalize (combine (seq 0 (length m)) m). intros l. revert p1. induction l as [|x l IHl]; intros p1 EL; cbn in EL; [destruct p1; discriminate|]. destruct (blockChanged cs sums (fst x) (snd x)).
          - destruct p1 as [|y p1]; cbn in EL.
            + injection EL as -> EL. clear IHl. revert p2 EL. induction l as [|y l IH2]; intros p2 EL; cbn in EL; [destruct p2; discriminate|]. destruct (blockChanged cs sums (fst y) (snd y)).
              * destruct p2 as [|z p2]; cbn in EL; [injection EL as -> EL; now exists [], [], l|]. injection EL as -> EL. destruct (IH2 _ EL) as (q1 & q2 & q3 & E). destruct q1 as [|w q1]; cbn in E.
                -- injection E as E. exists [], (z :: q2), q3. cbn. now rewrite E.
                -- injection E as -> E. exists (w :: z :: q1), q2, q3. cbn. now rewrite E.
              * destruct (IH2 _ EL) as (q1 & q2 & q3 & E). destruct q1 as [|w q1]; cbn in E.
                -- injection E as E. exists [], (y :: q2), q3. cbn. now rewrite E.
                -- injection E as -> E. exists (w :: y :: q1), q2, q3. cbn. now rewrite E.
            + injection EL as -> EL. destruct (IHl _ EL) as (q1 & q2 & q3 & ->). now exists (y :: q1), q2, q3.
          - destruct (IHl _ EL) as (q1 & q2 & q3 & ->). now exists (x :: q1), q2, q3. }
        destruct EL' as (q1 & q2 & q3 & Ec). apply (f_equal (map snd)) in Ec. rewrite combine_snd in Ec. rewrite map_app in Ec. cbn [map] in Ec. rewrite map_app in Ec. cbn [map] in Ec.
        apply (MP _ _ _ _ _ Ec). congruence. }
    exists ([] ++ concat (map (fun g => map (wr bs B) (snd g)) (refSort (refGroups L)))). split.
    - apply K; [|constructor]. intros r g Hin. apply G1. eapply Permutation_in; [apply refSort_perm|exact Hin].
    - cbn [app]. rewrite (concat_perm _ _ _ (refSort_perm _)). rewrite <- (map_map snd (map (wr bs B))), concat_map'. apply Permutation_map. exact G4.
  Qed.

  (** Which blocks do not change *)
  Lemma same_block c dbl i x : isBlocks bs c dbl -> blockChanged cs (Some (checksumRun hash bs [c])) i x = false -> exists d, nth_error dbl i = Some d /\ iSum x = hash d.
  Proof.
    intros Bd H. assert (Bd' : isBlocks bs (concat [c]) dbl) by (cbn; now rewrite app_nil_r). unfold blockChanged in H. rewrite (checksum_spec hash bs Hbs [c] dbl Bd') in H.
    assert (Lc : forall l, length (concat (map hash l)) = (length l * cs)%nat) by (induction l as [|y l IH]; [reflexivity|]; cbn; rewrite app_length, IH, Hhash; lia).
    rewrite Lc, Nat.div_mul in H by lia. apply orb_false_iff in H. destruct H as (H1 & H2). apply Nat.leb_gt in H1. apply negb_false_iff in H2. destruct (strEqb_spec (iSum x) (firstn cs (skipn (i * cs) (concat (map hash dbl))))) as [H3|]; [|discriminate]. clear H2. rename H3 into H2.
    destruct (nth_error dbl i) as [d|] eqn:Ed; [|apply nth_error_None in Ed; lia]. exists d. split; [reflexivity|]. rewrite H2. clear - Ed Hhash Lc. revert i Ed. induction dbl as [|y l IH]; intros i Ed; [destruct i; discriminate|]. destruct i as [|i]; cbn in Ed.
    - injection Ed as ->. cbn. rewrite firstn_app, Hhash, Nat.sub_diag, firstn_O, app_nil_r. apply firstn_all2. rewrite Hhash. lia.
    - cbn [map concat Nat.mul]. rewrite skipn_app, Hhash. rewrite (skipn_all2 (hash y)) by (rewrite Hhash; lia). cbn [app]. replace (cs + i * cs - cs)%nat with (i * cs)%nat by lia. now apply IH.
  Qed.

  Lemma block_exact m v sums c : mapOk cs m -> mapHolds hash decB repo bs m v -> (length c <= length v)%nat -> (sums = None \/ sums = Some (checksumRun hash bs [c]) /\ noCollision hash bs c v) ->
    exists w, readsRun decB repo bs (blockDeltaNew bs cs m sums) = Ok w /\ fold_left (fun c p => writeAt c (fst p) (snd p)) w c = v.
  Proof.
    intros MO (bl & Bk & Lm & Hh) Lc Hs. destruct (delta_reads m v bl sums MO Bk Lm ltac:(intros i x b H1 H2; apply (Hh i x b H1 H2))) as (W & RO & PW). exists W. split; [now apply readsRun_ok|].
    apply (writes_all bs Hbs v bl Bk W c Lc).
    - intros w Hw. apply (Permutation_in _ PW) in Hw. apply in_map_iff in Hw. destruct Hw as ((i, x) & <- & Hw). apply changed_in in Hw. destruct Hw as (Hw & _). exists i. cbn. split; [reflexivity|].
      apply nth_error_nth'. rewrite <- Lm. apply nth_error_Some. congruence.
    - intros j b Hj. destruct (nth_error m j) as [x|] eqn:Ex; [|apply nth_error_None in Ex; assert (j < length bl)%nat by (apply nth_error_Some; congruence); lia]. destruct (blockChanged cs sums j x) eqn:Ec.
      + left. apply (Permutation_in _ (Permutation_sym PW)). apply in_map_iff. exists (j, x). split; [unfold wr; cbn; now rewrite (nth_error_nth _ _ [] Hj)|]. apply changed_in. auto.
      + right. destruct Hs as [-> |(-> & NC)]; [discriminate|]. destruct (blocks_exist bs Hbs c) as (dbl & Bd). destruct (same_block c dbl j x Bd Ec) as (d & Ed & Es). destruct (Hh j x b Ex Hj) as (_ & Eh).
        assert (d = b) by (eapply NC; [exact Bd|exact Bk|exact Ed|exact Hj|congruence]). subst d. apply (blocks_at bs Hbs _ _ _ _ Bd Ed).
  Qed.
End Restore.
