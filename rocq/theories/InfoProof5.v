From Verif Require Import Base Str NumSpec JsonModel JsonSpec JsonProof5 IniModel InfoModel InfoSpec IniProof InfoProof InfoProof2 InfoProof3 InfoProof4.
Open Scope Z_scope.

(** * The entries of a text are unique *)
Lemma split_len {A} (k1 k2 v1 v2 : list A) : k1 ++ v1 = k2 ++ v2 -> length k1 = length k2 -> k1 = k2 /\ v1 = v2.
Proof. revert k2. induction k1 as [|a k1 IH]; intros [|b k2] E L; cbn in *; try lia; [auto|]. injection E as -> E. destruct (IH k2 E) as [-> ->]; [lia|auto]. Qed.
Lemma entries_unique_gen s ls l1 : iniEntries s ls l1 -> forall l2, iniEntries s ls l2 -> l1 = l2.
Proof.
  induction 1 as [s|s ls l H IH|s n ls l Hn H IH|s k v ls l Hs Hk Hno Hv Hf H IH]; intros l2 H2.
  - now inversion H2.
  - inversion H2; subst; [now apply IH|]. match goal with E : ?k ++ 61 :: _ = [] |- _ => destruct k; discriminate end.
  - inversion H2; subst.
    + match goal with E : ?a ++ [93] = n ++ [93] |- _ => apply app_inj_tail in E as [-> _] end. now apply IH.
    + exfalso. match goal with Hno : ~ _ |- _ => apply Hno; exists n; assumption end.
  - remember (k ++ 61 :: v) as x eqn:Ex. inversion H2 as [|? ? ? H3|? n' ? ? Hn' H3|? k' v' ? l' Hs' Hk' Hno' Hv' Hf' H3]; subst.
    + destruct k; discriminate.
    + exfalso. apply Hno. exists n'. congruence.
    + match goal with E : k' ++ 61 :: v' = k ++ 61 :: v |- _ => pose proof E as EE; clear E end; rename EE into E.
      assert (L : length k = length k').
      { destruct (Nat.lt_trichotomy (length k) (length k')) as [L|[L|L]]; [|exact L|].
        - specialize (Hf' k v E L). congruence.
        - specialize (Hf k' v' (eq_sym E) L). congruence. }
      destruct (split_len k' k (61 :: v') (61 :: v) E (eq_sym L)) as [-> E2]. injection E2 as ->. f_equal. now apply IH.
Qed.
Theorem file_unique text l1 l2 : fileEntries text l1 -> fileEntries text l2 -> l1 = l2.
Proof. intros (a & A1 & A2) (b & B1 & B2). apply lines_unique in A1, B1. subst. exact (entries_unique_gen _ _ _ A2 _ B2). Qed.

(** * The content does not depend on the checksum entries *)
Section Content.
  Variable D : Type.
  Variable cb : D -> str -> str -> str -> res D.
  Definition same (a b : infoLoadState D) : Prop := ilVersion D a = ilVersion D b /\ ilCipher D a = ilCipher D b /\ ilData D a = ilData D b.
  Lemma loadValue_same a b s k v a' : same a b -> infoLoadValue D cb a s k v = Ok a' ->
    if isSumEntry (s, k, v) then same a' b else exists b', infoLoadValue D cb b s k v = Ok b' /\ same a' b'.
  Proof.
    intros (S1 & S2 & S3). unfold infoLoadValue, isSumEntry. cbn [fst snd]. destruct (strEqb s sBackrest) eqn:Es; cbn [andb].
    - destruct (strEqb_spec k kChecksum) as [-> |Hk].
      + change (strEqb kChecksum kFormat) with false. change (strEqb kChecksum kVersion) with false.
        destruct (jsonToVar v) as [w| |]; try discriminate. cbn [bind]. destruct w; cbn [varStr bind]; try discriminate; intros H; injection H as <-; unfold same; cbn; auto.
      + destruct (strEqb k kFormat); [|destruct (strEqb k kVersion)].
        * destruct (jsonToVar v) as [w| |]; try discriminate. cbn [bind]. destruct w; cbn [varUInt64 bind]; try discriminate. destruct (_ =? _); [|discriminate]. intros H; injection H as <-; eexists; (split; [reflexivity|]); unfold same; cbn; auto.
        * destruct (jsonToVar v) as [w| |]; try discriminate. cbn [bind]. destruct w; cbn [varStr bind]; try discriminate; intros H; injection H as <-; eexists; (split; [reflexivity|]); unfold same; cbn; auto.
        * intros H; injection H as <-; eexists; (split; [reflexivity|]); unfold same; cbn; auto.
    - destruct (strEqb s sCipher).
      + destruct (strEqb k kCipherPass).
        * destruct (jsonToVar v) as [w| |]; try discriminate. cbn [bind]. destruct w; cbn [varStr bind]; try discriminate; intros H; injection H as <-; eexists; (split; [reflexivity|]); unfold same; cbn; auto.
        * intros H; injection H as <-; eexists; (split; [reflexivity|]); unfold same; cbn; auto.
      + cbn [ilData]. rewrite <- S3. destruct (cb (ilData D a) s k v) as [d| |]; try discriminate. cbn [bind]. intros H; injection H as <-; eexists; (split; [reflexivity|]); unfold same; cbn; auto.
  Qed.
  Lemma loadAll_same l : forall a b a', same a b -> loadAll D cb a l = Ok a' -> exists b', loadAll D cb b (filter notChecksum l) = Ok b' /\ same a' b'.
  Proof.
    induction l as [|[[s k] v] l IH]; intros a b a' Hs H; cbn [loadAll] in H.
    - injection H as <-. exists b. auto.
    - destruct (infoLoadValue D cb a s k v) as [a1| |] eqn:E; try discriminate. cbn [bind] in H. pose proof (loadValue_same _ _ _ _ _ _ Hs E) as K. cbn [filter].
      change (notChecksum (s, k, v)) with (negb (isSumEntry (s, k, v))). destruct (isSumEntry (s, k, v)); cbn [negb].
      + exact (IH _ _ _ K H).
      + destruct K as (b1 & E1 & K). cbn [loadAll]. rewrite E1. cbn [bind]. exact (IH _ _ _ K H).
  Qed.
  Variable sha : str -> str.
  Variable bufSize : nat.
  Theorem accepted_content text d r : infoNewLoad D cb sha bufSize text d = Ok r ->
    exists l c b, fileEntries text l /\ checksumIn l c /\ c = sha (checksumText (filter notChecksum l)) /\ feed cb d (filter isData l) = Ok (snd r) /\
      loadAll D cb (mkInfoLoad D [] [123] None None None d) (filter notChecksum l) = Ok b /\ r = (ilVersion D b, ilCipher D b, ilData D b).
  Proof.
    unfold infoNewLoad. intros H. destruct (infoLoadLoop D cb bufSize _ _ _ _) as [st| |] eqn:E; try discriminate. cbn [bind] in H. destruct (ilExpected D st) as [e|] eqn:Ee; [|discriminate].
    destruct (strEqb_spec e (sha (ilSum D st ++ sumEnd))) as [Es|]; [|discriminate]. injection H as <-. apply loop_inv in E as (l & Hl & E).
    destruct (loadAll_same l _ (mkInfoLoad D [] [123] None None None d) _ (conj eq_refl (conj eq_refl eq_refl)) E) as (b & Eb & B1 & B2 & B3).
    pose proof (loadAll_effect D cb l _ _ E) as (E1 & E2 & E3). cbn in E1, E2, E3.
    exists l, e, b. split; [exists (iniLines text); split; [apply lines_text|exact Hl]|]. split; [destruct (E3 e Ee) as [K|K]; [discriminate|exact K]|]. split; [rewrite Es, E1; f_equal; unfold checksumText; rewrite <- sums_spec; reflexivity|].
    split; [exact E2|]. split; [exact Eb|]. now rewrite B1, B2, B3.
  Qed.
  Lemma loadAll_each l : forall st st' s k v, loadAll D cb st l = Ok st' -> In (s, k, v) l -> exists a b, infoLoadValue D cb a s k v = Ok b.
  Proof.
    induction l as [|[[s0 k0] v0] l IH]; intros st st' s k v H Hin; [easy|]. cbn [loadAll] in H.
    destruct (infoLoadValue D cb st s0 k0 v0) as [st1| |] eqn:E; try discriminate. cbn [bind] in H. destruct Hin as [Hin|Hin]; [|eapply IH; eauto].
    injection Hin as -> -> ->. eauto.
  Qed.
  Theorem accepted_format text d r : infoNewLoad D cb sha bufSize text d = Ok r ->
    exists l, fileEntries text l /\ forall v, In (sBackrest, kFormat, v) l -> jsonToVar v = Ok (JUInt 5).
  Proof.
    intros H. apply accepted_content in H as (l & c & b & H1 & _ & _ & _ & H2 & _). exists l. split; [exact H1|]. intros v Hv.
    assert (Hv' : In (sBackrest, kFormat, v) (filter notChecksum l)) by (apply filter_In; split; [exact Hv|reflexivity]).
    destruct (loadAll_each _ _ _ _ _ _ H2 Hv') as (x & y & E). unfold infoLoadValue in E. change (strEqb sBackrest sBackrest) with true in E. change (strEqb kFormat kFormat) with true in E. cbn [andb] in E.
    destruct (jsonToVar v) as [j| |]; try discriminate. cbn [bind] in E. destruct j as [| |z|z| | |]; cbn [varUInt64 bind] in E; try discriminate.
    destruct (z =? REPOSITORY_FORMAT) eqn:Ez; [|discriminate]. apply Z.eqb_eq in Ez. rewrite Ez. reflexivity.
  Qed.
  Theorem same_content t1 t2 l1 l2 d r1 r2 : (forall a b, sha a = sha b -> a = b) ->
    infoNewLoad D cb sha bufSize t1 d = Ok r1 -> infoNewLoad D cb sha bufSize t2 d = Ok r2 ->
    fileEntries t1 l1 -> fileEntries t2 l2 -> Forall (fun e => ~ In 34 (fst (fst e))) (l1 ++ l2) ->
    (forall c c', checksumIn l1 c -> checksumIn l2 c' -> c = c') -> filter notChecksum l1 = filter notChecksum l2 /\ r1 = r2.
  Proof.
    intros Hsha H1 H2 F1 F2 Q Hc. apply Forall_app in Q as [Q1 Q2].
    apply accepted_content in H1 as (k1 & c1 & b1 & A1 & A2 & A3 & _ & A4 & ->). apply accepted_content in H2 as (k2 & c2 & b2 & B1 & B2 & B3 & _ & B4 & ->).
    assert (k1 = l1) by (eapply file_unique; eauto). assert (k2 = l2) by (eapply file_unique; eauto). subst k1 k2.
    specialize (Hc c1 c2 A2 B2). subst c1. rewrite B3 in Hc. apply Hsha in Hc.
    assert (Ok_ : forall t l, fileEntries t l -> Forall (fun e => ~ In 34 (fst (fst e))) l -> Forall (fun e : str * str * str => fst (fst e) <> [] /\ ~ In 34 (fst (fst e)) /\ jsonValidate (snd e) = Ok tt) (filter notChecksum l)).
    { intros t l (ls & _ & Hl) Hq. apply entries_sound in Hl. apply Forall_forall. intros e He. apply filter_In in He as [He _]. rewrite Forall_forall in Hl, Hq. destruct (Hl e He) as (? & _ & ?). auto. }
    apply checksum_inj in Hc; [|eapply Ok_; eauto|eapply Ok_; eauto]. rewrite Hc in *. assert (b1 = b2) by congruence. subst. auto.
  Qed.
End Content.
