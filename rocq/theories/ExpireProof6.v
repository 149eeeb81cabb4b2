From Verif Require Import Base Str ExpireModel ExpireSpec ExpireProof ExpireProof2 ExpireProof3 ExpireProof4 ExpireProof5.
Open Scope Z_scope.

(** * Label expressions *)
Lemma skipn_skipn {A} (n : nat) : forall m (l : list A), skipn n (skipn m l) = skipn (n + m) l.
Proof.
  induction m as [|m IH]; intros l; [rewrite Nat.add_0_r; reflexivity|]. rewrite Nat.add_succ_r.
  destruct l as [|a l]; cbn [skipn]; [apply skipn_nil|apply IH].
Qed.
Lemma isDigit_spec c : isDigit c = true <-> digit c.
Proof. unfold isDigit, digit. lia. Qed.

Lemma forallb_digits s : forallb isDigit s = true <-> Forall digit s.
Proof.
  rewrite forallb_forall, Forall_forall. split; intros H x Hx.
  - apply isDigit_spec. auto.
  - apply isDigit_spec. auto.
Qed.

Lemma firstn_one {A} (s : list A) c : firstn 1 s = [c] -> exists t, s = c :: t.
Proof. destruct s as [|a t]; cbn; [discriminate|]. intros E. injection E as ->. eauto. Qed.

Lemma isDateTime_spec s : isDateTime s = true <-> dateTime s.
Proof.
  unfold isDateTime, dateTime. rewrite !andb_true_iff, Nat.eqb_eq, !forallb_digits, strEqb_eq. split.
  - intros (((H1 & H2) & H3) & H4). exists (firstn 8 s), (skipn 9 s).
    apply firstn_one in H3. destruct H3 as (t & Et).
    split; [rewrite firstn_length; lia|]. split; [rewrite skipn_length; lia|]. split; [exact H2|]. split; [exact H4|].
    rewrite <- (firstn_skipn 8 s) at 1. f_equal. rewrite Et. f_equal.
    replace 9%nat with (1 + 8)%nat by reflexivity. rewrite <- skipn_skipn, Et. reflexivity.
  - intros (d & t & Hd & Ht & H1 & H2 & ->). rewrite app_length. cbn [length]. rewrite Hd, Ht.
    assert (E1 : firstn 8 (d ++ 45 :: t) = d) by (rewrite <- Hd at 1; rewrite firstn_app, Nat.sub_diag, firstn_all, firstn_O, app_nil_r; reflexivity).
    assert (E2 : skipn 8 (d ++ 45 :: t) = 45 :: t) by (rewrite <- Hd at 1; rewrite skipn_app, Nat.sub_diag, skipn_all; reflexivity).
    rewrite E1, E2. replace 9%nat with (1 + 8)%nat by reflexivity. rewrite <- skipn_skipn, E2. repeat split; auto.
Qed.

Lemma skipn_sing {A} n (s : list A) c : skipn n s = [c] -> length s = S n -> s = firstn n s ++ [c].
Proof. intros H _. rewrite <- H. symmetry. apply firstn_skipn. Qed.

Lemma labelFull_spec s : labelFull s = true <-> exists d, dateTime d /\ s = d ++ [70].
Proof.
  unfold labelFull. rewrite !andb_true_iff, Nat.eqb_eq, strEqb_eq, isDateTime_spec. split.
  - intros ((H1 & H2) & H3). exists (firstn 15 s). split; [exact H2|]. now apply skipn_sing.
  - intros (d & Hd & ->). assert (Hl : length d = 15%nat) by (destruct Hd as (a & t & A & B & _ & _ & ->); rewrite app_length; cbn; lia).
    rewrite app_length, Hl. cbn [length].
    assert (E1 : firstn 15 (d ++ [70]) = d) by (rewrite <- Hl at 1; rewrite firstn_app, Nat.sub_diag, firstn_all, firstn_O, app_nil_r; reflexivity).
    assert (E2 : skipn 15 (d ++ [70]) = [70]) by (rewrite <- Hl at 1; rewrite skipn_app, Nat.sub_diag, skipn_all; reflexivity).
    rewrite E1, E2. auto.
Qed.

Lemma labelDep_spec c s : labelDep c s = true <-> exists f d, labelFull f = true /\ dateTime d /\ s = f ++ 95 :: d ++ [c].
Proof.
  unfold labelDep. rewrite !andb_true_iff, Nat.eqb_eq, !strEqb_eq, isDateTime_spec. split.
  - intros ((((H1 & H2) & H3) & H4) & H5). exists (firstn 16 s), (firstn 15 (skipn 17 s)). split; [exact H2|]. split; [exact H4|].
    rewrite <- (firstn_skipn 16 s) at 1. f_equal. apply firstn_one in H3. destruct H3 as (t & Et).
    assert (E17 : skipn 17 s = t). { replace 17%nat with (1 + 16)%nat by reflexivity. rewrite <- skipn_skipn, Et. reflexivity. }
    rewrite Et, E17. f_equal. rewrite <- (firstn_skipn 15 t) at 1. f_equal.
    rewrite <- E17. rewrite skipn_skipn. exact H5.
  - intros (f & d & Hf & Hd & ->). pose proof (labelFull_len f Hf) as Lf.
    assert (Hl : length d = 15%nat) by (destruct Hd as (a & t & A & B & _ & _ & ->); rewrite app_length; cbn; lia).
    rewrite app_length. cbn [length]. rewrite app_length, Lf, Hl. cbn [length].
    assert (E1 : firstn 16 (f ++ 95 :: d ++ [c]) = f) by (rewrite <- Lf at 1; rewrite firstn_app, Nat.sub_diag, firstn_all, firstn_O, app_nil_r; reflexivity).
    assert (E2 : skipn 16 (f ++ 95 :: d ++ [c]) = 95 :: d ++ [c]) by (rewrite <- Lf at 1; rewrite skipn_app, Nat.sub_diag, skipn_all; reflexivity).
    assert (E17 : skipn 17 (f ++ 95 :: d ++ [c]) = d ++ [c]) by (replace 17%nat with (1 + 16)%nat by reflexivity; rewrite <- skipn_skipn, E2; reflexivity).
    assert (E32 : skipn 32 (f ++ 95 :: d ++ [c]) = skipn 15 (d ++ [c])).
    { replace 32%nat with (15 + 17)%nat by reflexivity. now rewrite <- skipn_skipn, E17. }
    rewrite E1, E2, E17, E32.
    assert (E3 : firstn 15 (d ++ [c]) = d) by (rewrite <- Hl at 1; rewrite firstn_app, Nat.sub_diag, firstn_all, firstn_O, app_nil_r; reflexivity).
    assert (E4 : skipn 15 (d ++ [c]) = [c]) by (rewrite <- Hl at 1; rewrite skipn_app, Nat.sub_diag, skipn_all; reflexivity).
    rewrite E3, E4. repeat split; auto.
Qed.

(** * cmdExpire level *)
Lemma expireFull_zero dry l : expireFull dry 0 l = (l, [], []).
Proof. reflexivity. Qed.

Lemma expireDiff_full dry n l l' o e : goodHistory l -> expireDiff dry n l = (l', o, e) -> fullLabels l' = fullLabels l.
Proof.
  intros Hg H. destruct n as [|n]; [injection H as <- _ _; reflexivity|]. eapply expireDiff_spec in H; [|exact Hg|lia]. tauto.
Qed.

Lemma no_oldest c l : cOldest c = false \/ (length (fullLabels l) <= 1)%nat ->
  cOldest c && (1 <? length (labelList labelFull l))%nat = false.
Proof.
  intros [->|H]; [reflexivity|]. change (labelList labelFull l) with (fullLabels l).
  rewrite (proj2 (Nat.ltb_ge 1 (length (fullLabels l))) H). apply andb_false_r.
Qed.

Lemma cmd_full c l l' o e ar : goodHistory l -> cSet c = None -> cTime c = false ->
  (cOldest c = false \/ (length (fullLabels l) <= 1)%nat) ->
  expireInfo c l = Ok ((l', o, e), ar) ->
  fullLabels l' = match cRetFull c with Some (S n) => newest (S n) (fullLabels l) | _ => fullLabels l end.
Proof.
  intros Hg Hs Ht Hold H. unfold expireInfo in H. rewrite Hs, Ht, (no_oldest c l Hold) in H. cbn [andb bind] in H.
  destruct (expireFull (cDry c) (ret0 (cRetFull c)) l) as [[l1 o1] e1] eqn:E1.
  destruct (expireDiff (cDry c) (ret0 (cRetDiff c)) l1) as [[l2 o2] e2] eqn:E2. cbn [bind] in H. injection H as <- _ _ _.
  assert (Hg1 : goodHistory l1) by (eapply expireFull_survives; eauto).
  rewrite (expireDiff_full _ _ _ _ _ _ Hg1 E2). destruct (cRetFull c) as [[|n]|]; cbn [ret0] in E1.
  - rewrite expireFull_zero in E1. now injection E1 as <- _ _.
  - eapply expireFull_spec in E1; [|exact Hg|lia]. tauto.
  - rewrite expireFull_zero in E1. now injection E1 as <- _ _.
Qed.

Lemma cmd_oldest c l l' o e ar : goodHistory l -> cSet c = None -> cOldest c = true -> (1 < length (fullLabels l))%nat ->
  expireInfo c l = Ok ((l', o, e), ar) -> fullLabels l' = tl (fullLabels l).
Proof.
  intros Hg Hs Hold Hlen H. unfold expireInfo in H. rewrite Hs, Hold in H. change (labelList labelFull l) with (fullLabels l) in H.
  rewrite (proj2 (Nat.ltb_lt 1 (length (fullLabels l))) Hlen) in H. cbn [andb bind ret0] in H.
  destruct (expireFull (cDry c) (length (fullLabels l) - 1) l) as [[l1 o1] e1] eqn:E1.
  destruct (expireDiff (cDry c) (ret0 (cRetDiff c)) l1) as [[l2 o2] e2] eqn:E2. injection H as <- _ _ _.
  assert (Hg1 : goodHistory l1) by (eapply expireFull_survives; eauto).
  rewrite (expireDiff_full _ _ _ _ _ _ Hg1 E2). eapply expireFull_spec in E1; [|exact Hg|lia]. destruct E1 as (_ & _ & _ & ->).
  unfold newest. replace (length (fullLabels l) - (length (fullLabels l) - 1))%nat with 1%nat by lia. destruct (fullLabels l); reflexivity.
Qed.

Lemma cmd_time c l l' o e ar d : goodHistory l -> cSet c = None -> cTime c = true ->
  (cOldest c = false \/ (length (fullLabels l) <= 1)%nat) -> cRetFull c = Some d ->
  expireInfo c l = Ok ((l', o, e), ar) ->
  forall x, In x (fullLabels l') <->
    In x (fullLabels l) /\
    ~ exists g, In g l /\ labelFull (bkLabel g) = true /\ bkTimeStop g < cNow c - Z.of_nat d * 86400 /\ slt x (bkLabel g).
Proof.
  intros Hg Hs Ht Hold Hr H. unfold expireInfo in H. rewrite Hs, Ht, (no_oldest c l Hold), Hr in H. cbn [andb] in H.
  destruct (expireTime_spec (cDry c) (cNow c - Z.of_nat d * 86400) l Hg) as (l1 & o1 & e1 & ar1 & E1 & Hg1 & Hsub & Hiff & _).
  rewrite E1 in H. cbn [bind] in H.
  destruct (expireDiff (cDry c) (ret0 (cRetDiff c)) l1) as [[l2 o2] e2] eqn:E2. injection H as <- _ _ _.
  rewrite (expireDiff_full _ _ _ _ _ _ Hg1 E2). intros x. rewrite !in_fullLabels. split.
  - intros (b & Hb & <- & Hf). apply Hiff in Hb. destruct Hb as [Hb Hn]. split; [eauto|]. intros (g & A & B & C & D). apply Hn.
    exists g. repeat split; auto. unfold fullOf. now rewrite firstn_all2 by (rewrite (labelFull_len _ Hf); lia).
  - intros [(b & Hb & <- & Hf) Hn]. exists b. split; [|auto]. apply Hiff. split; [exact Hb|]. intros (g & A & B & C & D). apply Hn.
    exists g. repeat split; auto. unfold fullOf in D. now rewrite firstn_all2 in D by (rewrite (labelFull_len _ Hf); lia).
Qed.

(** The latest link after an adhoc expire. *)
Lemma adhoc_latest l lab l' o e : ordered l -> expireAdhoc false l lab = Ok (l', o, e) ->
  forall x, In (LinkLatest x) o <-> exists pre b pre' b', l = pre ++ [b] /\ l' = pre' ++ [b'] /\ ~ In b l' /\ x = bkLabel b'.
Proof.
  intros Ho E x. unfold expireAdhoc in E. destruct (strLstSortDesc (labelList labelFull l)) as [|f0 rest]; [discriminate|].
  match type of E with context [bind ?r _] => destruct r as [[|]|k|] end; cbn [bind] in E; try discriminate.
  destruct (rev l) as [|latest rl] eqn:Er; [discriminate|].
  assert (El : l = rev rl ++ [latest]) by (rewrite <- (rev_involutive l), Er; reflexivity).
  destruct (expireBackup false l lab) as [[l2 o2] e2] eqn:E2. pose proof (expireBackup_in _ _ _ _ _ _ Ho E2) as Hin.
  assert (Hno : forall y, ~ In (LinkLatest y) o2).
  { unfold expireBackup in E2. injection E2 as _ <- _. intros y Hy. apply in_flat_map in Hy. destruct Hy as (z & _ & [H|[H|[]]]); discriminate. }
  assert (Hlat : labelExists l2 (bkLabel latest) = true <-> In latest l2).
  { rewrite labelExists_in, in_map_iff. split; [|eauto]. intros (c & Ec & Hc).
    assert (c = latest); [|congruence]. pose proof (proj1 (Hin c) Hc) as [Hcl _].
    eapply label_inj; [apply NoDup_labels, Ho|exact Hcl| |exact Ec]. rewrite El. apply in_or_app. right. now left. }
  assert (Huniq : forall pre b, l = pre ++ [b] -> b = latest) by (intros pre b Hb; rewrite El in Hb; now apply app_inj_tail in Hb).
  destruct (labelExists l2 (bkLabel latest)) eqn:Ex.
  - injection E as <- <- <-. split; [intros H; exfalso; eapply Hno; eauto|].
    intros (pre & b & pre' & b' & H1 & _ & H2 & _). apply Huniq in H1. subst b. exfalso. apply H2. now apply Hlat.
  - destruct (rev l2) as [|z rz] eqn:Erz; [discriminate|]. injection E as <- <- <-.
    assert (El2 : l2 = rev rz ++ [z]) by (rewrite <- (rev_involutive l2), Erz; reflexivity).
    rewrite in_app_iff. split.
    + intros [H|[H|[]]]; [exfalso; eapply Hno; eauto|]. injection H as <-. exists (rev rl), latest, (rev rz), z. repeat split; auto.
      intros H. apply Hlat in H. congruence.
    + intros (pre & b & pre' & b' & H1 & H3 & H2 & ->). right. left. f_equal. f_equal. rewrite El2 in H3. now apply app_inj_tail in H3.
Qed.
