From Verif Require Import Base Str ManifestModel LinkCheckModel LinkCheckSpec LinkCheckProof LinkCheckProof2.
Open Scope Z_scope.

Lemma loop_base ts : manifestLinkCheck ts = Ok tt -> (exists t, In t ts /\ mtIsPath t = false) ->
  exists tb base, manifestTargetFind ts pgData = Ok tb /\ manifestTargetPath ts tb = Ok base.
Proof.
  unfold manifestLinkCheck. intros H (t & Ht & Et).
  assert (G : forall todo l, linkCheckLoop ts l todo = Ok tt -> In t todo ->
    exists tb base, manifestTargetFind ts pgData = Ok tb /\ manifestTargetPath ts tb = Ok base).
  { induction todo as [|u todo IH]; intros l E Hi; [destruct Hi|]. cbn [linkCheckLoop] in E.
    destruct (manifestLinkCheckOne ts l u) as [l'| |] eqn:E1; cbn [bind] in E; try discriminate.
    destruct Hi as [->|Hi]; [|eauto]. unfold manifestLinkCheckOne in E1. rewrite Et in E1.
    destruct (manifestTargetPath ts t) as [p| |]; cbn [bind] in E1; try discriminate.
    destruct (manifestTargetFind ts pgData) as [tb| |]; cbn [bind] in E1; try discriminate.
    destruct (manifestTargetPath ts tb) as [b| |] eqn:Eb; cbn [bind] in E1; try discriminate. eauto. }
  eapply G; eauto.
Qed.

Section Sound.
Variables (ts : list mtarget) (ds : list (str * option str)).
Let P := fun (t : mtarget) (d : str * option str) => manifestTargetPath ts t = Ok (fst d) /\ mtFile t = snd d.
Lemma dests_at l1 t l2 todo es : Forall2 P (filter (fun t => negb (mtIsPath t)) todo) es -> todo = l1 ++ t :: l2 -> mtIsPath t = false ->
  exists d1 p d2, es = d1 ++ (p, mtFile t) :: d2 /\ manifestTargetPath ts t = Ok p /\ Forall2 P (filter (fun t => negb (mtIsPath t)) l2) d2.
Proof.
  intros F -> Et. rewrite filter_app in F. apply Forall2_app_inv_l in F as (d1 & d2 & F1 & F2 & ->). cbn [filter] in F2. rewrite Et in F2. cbn [negb] in F2.
  inversion F2 as [|? [p f] ? d3 [Ep Ef] F3]; subst. cbn in Ep, Ef. subst f. exists d1, p, d3. auto.
Qed.
End Sound.

Lemma nth_error_mid {A} (a : list A) x b : nth_error (a ++ x :: b) (length a) = Some x.
Proof. rewrite nth_error_app2, Nat.sub_diag by lia. reflexivity. Qed.

Lemma check_base ts t p tb base : manifestLinkCheck ts = Ok tt -> In t ts -> mtIsPath t = false -> manifestTargetPath ts t = Ok p ->
  manifestTargetFind ts pgData = Ok tb -> manifestTargetPath ts tb = Ok base -> ~ inDir base p.
Proof.
  intros H Ht Et Ep Htb Hb. destruct (check_not_ub_dests ts H) as [ds F].
  apply (check_exact ts tb base ds Htb Hb F) in H as [A _]. apply in_split in Ht as (l1 & l2 & E).
  destruct (dests_at ts _ _ _ _ _ F E Et) as (d1 & q & d2 & -> & Eq & _).
  rewrite Ep in Eq. injection Eq as <-. apply (A p (mtFile t)). apply in_or_app. right. now left.
Qed.
Lemma check_pair ts l1 t l2 u l3 p q : manifestLinkCheck ts = Ok tt -> ts = l1 ++ t :: l2 ++ u :: l3 -> mtIsPath t = false -> mtIsPath u = false ->
  manifestTargetPath ts t = Ok p -> manifestTargetPath ts u = Ok q ->
  (mtFile t = None -> mtFile u = None -> ~ inDir p q /\ ~ inDir q p) /\ (mtFile t = None \/ mtFile u = None -> p <> q).
Proof.
  intros H E Et Eu Ep Eq. destruct (check_not_ub_dests ts H) as [ds F].
  destruct (loop_base ts H) as (tb & base & Htb & Hb). { exists t. split; [|exact Et]. rewrite E. apply in_or_app. right. now left. }
  apply (check_exact ts tb base ds Htb Hb F) in H as [_ B].
  destruct (dests_at ts _ _ _ _ _ F E Et) as (d1 & p' & d2 & -> & Ep' & F2).
  destruct (dests_at ts _ _ _ _ _ F2 eq_refl Eu) as (e1 & q' & e2 & -> & Eq' & _).
  rewrite Ep in Ep'. injection Ep' as <-. rewrite Eq in Eq'. injection Eq' as <-.
  destruct (B (length d1) (length d1 + S (length e1))%nat p q (mtFile t) (mtFile u)) as [X Y]; [lia|apply nth_error_mid| |].
  { rewrite nth_error_app2 by lia. replace (length d1 + S (length e1) - length d1)%nat with (S (length e1)) by lia. apply nth_error_mid. }
  split; [exact Y|]. intros Hn Epq. destruct (X Epq) as (a & b & Ea & Eb & _). destruct Hn; congruence.
Qed.

(** Relative destinations are relative to the directory that has the link *)
Lemma dropBase_noslash r s : noSlash r -> dropBase (r ++ 47 :: s) = 47 :: s.
Proof.
  induction r as [|x r IH]; intros H; [reflexivity|]. cbn. destruct (Z.eqb_spec x 47) as [->|E]; [elim H; now left|]. apply IH. intros F. apply H. now right.
Qed.
Lemma dropBase_none r : noSlash r -> dropBase r = [].
Proof.
  induction r as [|x r IH]; intros H; [reflexivity|]. cbn. destruct (Z.eqb_spec x 47) as [->|E]; [elim H; now left|]. apply IH. intros F. apply H. now right.
Qed.
Lemma upToSlash_app a c : noSlash c -> upToSlash (a ++ 47 :: c) = a ++ [47].
Proof.
  intros H. unfold upToSlash. rewrite rev_app_distr. cbn [rev]. rewrite <- app_assoc. cbn [app]. rewrite dropBase_noslash; [cbn; now rewrite rev_involutive|].
  intros F. apply in_rev in F. auto.
Qed.
Lemma upToSlash_none c : noSlash c -> upToSlash c = [].
Proof. intros H. unfold upToSlash. rewrite dropBase_none; [reflexivity|]. intros F. apply in_rev in F. auto. Qed.
Lemma join_snoc l c : l <> [] -> joinSlash (l ++ [c]) = joinSlash l ++ 47 :: c.
Proof.
  induction l as [|a l IH]; intros H; [congruence|]. destruct l as [|b l]; [reflexivity|].
  change (a ++ 47 :: joinSlash ((b :: l) ++ [c]) = (a ++ 47 :: joinSlash (b :: l)) ++ 47 :: c). rewrite IH by discriminate. now rewrite <- app_assoc.
Qed.
Lemma join_app l r : l <> [] -> r <> [] -> joinSlash (l ++ r) = joinSlash l ++ 47 :: joinSlash r.
Proof.
  intros Hl Hr. induction l as [|a l IH]; [congruence|]. destruct l as [|b l]; [destruct r; [congruence|reflexivity]|].
  change (a ++ 47 :: joinSlash ((b :: l) ++ r) = (a ++ 47 :: joinSlash (b :: l)) ++ 47 :: joinSlash r). rewrite IH by discriminate. now rewrite <- app_assoc.
Qed.
Lemma join_ne l : l <> [] -> Forall good l -> joinSlash l <> [].
Proof. intros H F. destruct l as [|a l]; [congruence|]. inversion F as [|? ? [G _] _]; subst. destruct a; [congruence|]. destruct l; discriminate. Qed.
Lemma strPath_join l c : Forall good l -> good c -> strPath (joinSlash (l ++ [c])) = joinSlash l.
Proof.
  intros F G. unfold strPath. destruct l as [|a l].
  - cbn [app joinSlash]. rewrite upToSlash_none by apply G. reflexivity.
  - rewrite join_snoc by discriminate. rewrite upToSlash_app by apply G.
    pose proof (join_ne (a :: l) ltac:(discriminate) F) as N. destruct (joinSlash (a :: l)) as [|x s] eqn:E; [congruence|].
    rewrite app_length. cbn [length]. destruct (Nat.leb_spec (S (length s) + 1) 1); [lia|]. apply removelast_last.
Qed.
Lemma target_path ts tb b t dir n rel : manifestTargetFind ts pgData = Ok tb -> mtPath tb = pathOf b -> b <> [] -> rel <> [] ->
  mtName t = pgData ++ 47 :: joinSlash (dir ++ [n]) -> mtPath t = joinSlash rel -> Forall good (b ++ dir ++ [n] ++ rel) ->
  (forall l c, walk b (dir ++ rel) = Some l -> In c l -> strBeginsWith c [46;46] = false) ->
  manifestTargetPath ts t = match walk b (dir ++ rel) with None => Err EAssert | Some [] => Ok [47] | Some l => Ok (pathOf l) end.
Proof.
  intros Htb Etb Hb Hr En Ep G Hd. apply Forall_app in G as [Gb G]. apply Forall_app in G as [Gd G]. apply Forall_app in G as [Gn Gr].
  inversion Gn as [|? ? Gn' _]; subst.
  unfold manifestTargetPath. rewrite Ep. destruct rel as [|r0 rel]; [congruence|].
  rewrite begins_slash_join by (now inversion Gr). unfold manifestPathPg. rewrite En.
  replace (strBeginsWith (pgData ++ 47 :: joinSlash (dir ++ [n])) (pgData ++ [47])) with true.
  2:{ symmetry. apply begins_iff. exists (joinSlash (dir ++ [n])). rewrite <- app_assoc. reflexivity. }
  replace (skipn (length pgData + 1) (pgData ++ 47 :: joinSlash (dir ++ [n]))) with (joinSlash (dir ++ [n])) by reflexivity.
  rewrite strPath_join by auto. rewrite Htb. cbn [bind]. rewrite Etb.
  assert (E : (if (length (joinSlash dir) =? 0)%nat then joinSlash dir else joinSlash dir ++ [47]) ++ joinSlash (r0 :: rel) = joinSlash (dir ++ r0 :: rel)).
  { destruct dir as [|d dir]; [reflexivity|]. rewrite join_app by discriminate.
    destruct (Nat.eqb_spec (length (joinSlash (d :: dir))) 0) as [E0|E0].
    - apply length_zero_iff_nil in E0. apply join_ne in E0; [destruct E0|discriminate|exact Gd].
    - now rewrite <- app_assoc. }
  etransitivity; [exact (f_equal (fun x => strPathAbsolute x (pathOf b)) E)|]. pose proof (absolute b (dir ++ r0 :: rel) false Hb) as A. rewrite app_nil_r in A. apply A; auto.
  - destruct dir; discriminate.
  - apply Forall_app. auto.
Qed.
