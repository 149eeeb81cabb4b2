(** Lemmas on reading with retries. *)
From Verif Require Import Base MultiModel MultiSpec MultiProof MultiProof2 RetryModel RetrySpec.
Open Scope Z_scope.

Lemma openAt_asked c off lim : 0 <= off -> match lim with None => True | Some l => 0 <= l end -> openAt c off lim = asked c off lim.
Proof.
  intros O L. unfold openAt, asked. destruct lim as [l|].
  - rewrite bytes_slice by lia. do 2 f_equal; [lia|]. f_equal. lia.
  - rewrite bytes_from by lia. f_equal. lia.
Qed.
Lemma openAt_more c off lim n : 0 <= off -> 0 <= n -> match lim with None => True | Some l => n <= l end ->
  openAt c (off + n) (match lim with None => None | Some l => Some (l - n) end) = skipn (Z.to_nat n) (openAt c off lim).
Proof.
  intros O N L. unfold openAt. replace (Z.to_nat (off + n)) with (Z.to_nat off + Z.to_nat n)%nat by lia. rewrite skipn_more. destruct lim as [l|]; [|reflexivity].
  rewrite skipn_firstn_comm. f_equal. lia.
Qed.
Lemma openAt_length c off lim : 0 <= off -> Z.of_nat (length (openAt c off lim)) <= Z.max 0 (Z.of_nat (length c) - off) /\ match lim with None => True | Some l => 0 <= l -> Z.of_nat (length (openAt c off lim)) <= l end.
Proof. intros O. unfold openAt. destruct lim as [l|]; [rewrite firstn_length|]; rewrite skipn_length; lia. Qed.

Definition inv (c : list Z) (r : reader) : Prop :=
  0 <= dOff r < B64 /\ match dLim r with None => True | Some l => 0 <= l < B64 end /\ Z.of_nat (length c) < B64 /\
  0 <= dRead r <= Z.of_nat (length (openAt c (dOff r) (dLim r))) /\ dLeft r = skipn (Z.to_nat (dRead r)) (openAt c (dOff r) (dLim r)).

Lemma try_spec c try : forall r buf room evs b got r2 evs2, inv c r -> stable c evs ->
  tryRead try r (length buf) room buf evs = Ok (b, got, r2, evs2) ->
  exists g, b = buf ++ g /\ got = Z.of_nat (length g) /\ (length g <= room)%nat /\ inv c r2 /\ dOff r2 = dOff r /\ dLim r2 = dLim r /\ dLeft r = g ++ dLeft r2 /\ (exists used, evs = used ++ evs2).
Proof.
  induction try as [|try IH]; intros r buf room evs b got r2 evs2 (O & L & C & D & E) ST.
  1, 2: destruct evs as [|[k|k e again] t]; cbn [tryRead]; try discriminate.
  1, 2: rewrite Nat.sub_diag, Nat.sub_0_r; set (n := Nat.min k room); intros [= <- <- <- <-]; exists (firstn n (dLeft r)); rewrite app_length; replace (length buf + length (firstn n (dLeft r)) - length buf)%nat with (length (firstn n (dLeft r))) by lia;
    split; [reflexivity|]; split; [reflexivity|]; split; [rewrite firstn_length; lia|]; split; [|cbn [dOff dLim dLeft]; repeat split; [now rewrite firstn_skipn|now exists [Gives k]]];
    unfold inv; cbn [dOff dLim dLeft dRead]; pose proof (openAt_length c (dOff r) (dLim r)) as LO;
    assert (LL : (length (dLeft r) = length (openAt c (dOff r) (dLim r)) - Z.to_nat (dRead r))%nat) by (rewrite E, skipn_length; reflexivity);
    rewrite wrap_id by (rewrite firstn_length; lia); split; [assumption|]; split; [assumption|]; split; [assumption|]; split; [rewrite firstn_length; lia|];
    rewrite E at 1; rewrite <- skipn_more; rewrite firstn_length; destruct (Nat.le_gt_cases n (length (dLeft r))); [f_equal; lia|rewrite !skipn_all2 by lia; reflexivity].
  destruct try as [|try]; [discriminate|]. destruct (isMissing e); [discriminate|]. destruct again as [c2|]; [|discriminate].
  assert (c2 = c) as -> by (apply (ST k e); now left). rewrite firstn_app, firstn_all, Nat.sub_diag. cbn [firstn]. rewrite app_nil_r. intros H.
  pose proof (openAt_length c (dOff r) (dLim r)) as LO. rewrite (wrap_id (dOff r + dRead r)) in H by lia.
  assert (X : openAt c (dOff r + dRead r) (match dLim r with None => None | Some l => Some (wrap (l - dRead r)) end) = dLeft r).
  { rewrite E, <- openAt_more; try lia; [|destruct (dLim r); lia]. f_equal. destruct (dLim r); [|reflexivity]. f_equal. apply wrap_id. lia. }
  rewrite X in H. apply IH in H as (g & G1 & G2 & G3 & G4 & G5 & G6 & G7 & (used & G8)).
  - exists g. repeat (split; [assumption|]). exists (Fails k e (inl c) :: used). now rewrite G8.
  - unfold inv. cbn [dOff dLim dRead dLeft]. now repeat split.
  - intros k2 e2 c2 I. apply (ST k2 e2). now right.
Qed.
Lemma read_file c retry bufs : forall r evs out r2, inv c r -> stable c evs -> readFile retry r bufs evs = Ok (out, r2) -> dLeft r = out ++ dLeft r2 /\ inv c r2.
Proof.
  induction bufs as [|[buf room] bufs IH]; intros r evs out r2 I ST; cbn [readFile]; [intros [= <- <-]; now split|].
  unfold storageRead. destruct (tryRead _ r _ room buf evs) as [[[[b got] r1] evs1]| |] eqn:T; cbn [bind]; try discriminate.
  destruct (try_spec c _ _ _ _ _ _ _ _ _ I ST T) as (g & G1 & G2 & G3 & G4 & _ & _ & G7 & (used & G8)).
  destruct (readFile retry r1 bufs evs1) as [[rest r3]| |] eqn:R; cbn [bind]; try discriminate. intros [= <- <-].
  assert (ST1 : stable c evs1) by (intros k e c2 J; apply (ST k e); rewrite G8, in_app_iff; now right). destruct (IH _ _ _ _ G4 ST1 R) as (Q1 & Q2).
  split; [|assumption]. rewrite G1, skipn_app, skipn_all, Nat.sub_diag. cbn [skipn app]. now rewrite <- app_assoc, <- Q1.
Qed.
Lemma outcome_cons tries x evs o : passing x -> outcome tries evs o -> outcome (S tries) (x :: evs) o.
Proof.
  intros P O. inversion O; subst.
  - apply (ODone _ _ (x :: before) k after); [reflexivity|now constructor|cbn; lia].
  - apply (OLast _ _ (x :: before) k e again after); [reflexivity|now constructor|reflexivity].
  - apply (OMissing _ _ (x :: before) k again after); [reflexivity|now constructor|cbn; lia].
  - apply (OOpen _ _ (x :: before) k e e2 after); [reflexivity|now constructor|assumption|cbn; lia].
Qed.
Lemma try_outcome try : forall r begin room buf evs, match tryRead (S try) r begin room buf evs with
  | Ok _ => outcome (S try) evs None | Err e => outcome (S try) evs (Some e) | UB => Forall passing evs /\ (length evs <= try)%nat end.
Proof.
  induction try as [|try IH]; intros r begin room buf evs; destruct evs as [|[k|k e again] t]; cbn [tryRead].
  1, 4: split; [constructor|cbn; lia].
  1, 3: apply (ODone _ _ [] k t); [reflexivity|constructor|cbn; lia].
  - apply (OLast _ _ [] k e again t); [reflexivity|constructor|reflexivity].
  - destruct (isMissing e) eqn:M.
    + assert (e = EFileMissing) as -> by (destruct e; try discriminate; reflexivity). apply (OMissing _ _ [] k again t); [reflexivity|constructor|cbn; lia].
    + assert (N : e <> EFileMissing) by (intros ->; discriminate). destruct again as [c|e2].
      * match goal with |- context [tryRead (S try) ?r2 ?b2 ?ro ?bu t] => specialize (IH r2 b2 ro bu t); destruct (tryRead (S try) r2 b2 ro bu t) end.
        -- apply outcome_cons; [exists k, e, c; now split|exact IH].
        -- apply outcome_cons; [exists k, e, c; now split|exact IH].
        -- destruct IH as (A & B). split; [constructor; [exists k, e, c; now split|exact A]|cbn; lia].
      * apply (OOpen _ _ [] k e e2 t); [reflexivity|constructor|assumption|cbn; lia].
Qed.
Lemma split2 (evs b1 b2 a1 a2 : list event) x1 x2 : evs = b1 ++ x1 :: a1 -> evs = b2 ++ x2 :: a2 -> Forall passing b1 -> Forall passing b2 ->
  (length b1 < length b2)%nat /\ passing x1 \/ (length b2 < length b1)%nat /\ passing x2 \/ x1 = x2 /\ length b1 = length b2.
Proof.
  intros E1 E2 P1 P2. rewrite E1 in E2. clear E1. revert b2 E2 P2. induction b1 as [|y b1 IH]; intros [|z b2] E P2; cbn [app length] in *.
  - right. right. injection E as -> _. now split.
  - left. injection E as -> _. inversion P2; subst. split; [lia|assumption].
  - right. left. injection E as <- _. inversion P1; subst. split; [lia|assumption].
  - injection E as -> E. inversion P1; subst. inversion P2; subst. destruct (IH ltac:(assumption) _ E) as [(L & P)|[(L & P)|(-> & L)]]; [assumption|left|right; left|right; right]; (split; [lia || reflexivity|assumption || lia]).
Qed.
Lemma not_passing_gives k : ~ passing (Gives k). Proof. intros (? & ? & ? & H & _). discriminate. Qed.
Lemma not_passing_missing k a : ~ passing (Fails k EFileMissing a). Proof. intros (? & ? & ? & H & N). injection H as _ <- _. now apply N. Qed.
Lemma not_passing_open k e e2 : ~ passing (Fails k e (inr e2)). Proof. intros (? & ? & ? & H & _). discriminate. Qed.
Lemma outcome_det tries evs a b : outcome tries evs a -> outcome tries evs b -> a = b.
Proof.
  intros A B. destruct A as [b1 k1 a1 E1 P1 L1|b1 k1 e1 g1 a1 E1 P1 L1|b1 k1 g1 a1 E1 P1 L1|b1 k1 e1 f1 a1 E1 P1 N1 L1]; destruct B as [b2 k2 a2 E2 P2 L2|b2 k2 e2 g2 a2 E2 P2 L2|b2 k2 g2 a2 E2 P2 L2|b2 k2 e2 f2 a2 E2 P2 N2 L2];
    destruct (split2 _ _ _ _ _ _ _ E1 E2 P1 P2) as [(L & P)|[(L & P)|(X & L)]];
    try (exfalso; lia); try (exfalso; exact (not_passing_gives _ P)); try (exfalso; exact (not_passing_missing _ _ P)); try (exfalso; exact (not_passing_open _ _ _ P)); try discriminate X; try reflexivity; try (injection X; intros; subst; reflexivity || congruence).
Qed.
