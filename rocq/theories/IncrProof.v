(** Proofs about the copy of the files of one backup. *)
From Coq Require Import Permutation.
From Verif Require Import Base Str IncrModel IncrSpec.
Open Scope Z_scope.

Lemma rpath_eq_true : forall a b, rpath_eq a b = true <-> a = b.
Proof.
  intros a b. split.
  - destruct a, b; simpl; try discriminate; intros H; apply andb_prop in H; destruct H as [H1 H2]; apply strEqb_eq in H1; subst.
    + apply strEqb_eq in H2. subst. reflexivity.
    + apply Z.eqb_eq in H2. subst. reflexivity.
  - intros <-. destruct a; simpl; rewrite strEqb_refl; simpl. { apply strEqb_refl. } apply Z.eqb_refl.
Qed.
Lemma repoPut_same : forall r p v, repoPut r p v p = v.
Proof. intros. unfold repoPut. rewrite (proj2 (rpath_eq_true p p) eq_refl). reflexivity. Qed.
Lemma repoPut_other : forall r p v q, q <> p -> repoPut r p v q = r q.
Proof. intros r p v q H. unfold repoPut. destruct (rpath_eq p q) eqn:E; [|reflexivity]. apply rpath_eq_true in E. congruence. Qed.

Lemma zlen_app : forall a b, zlen (a ++ b) = zlen a + zlen b.
Proof. intros. unfold zlen. rewrite app_length. lia. Qed.
Lemma zlen_nonneg : forall a, 0 <= zlen a.
Proof. intros. unfold zlen. lia. Qed.
Lemma slice_app : forall a b c, slice (a ++ b ++ c) (zlen a) (zlen b) = b.
Proof.
  intros a b c. unfold slice, zlen. rewrite !Nat2Z.id. rewrite skipn_app, skipn_all, Nat.sub_diag. simpl.
  rewrite firstn_app, firstn_all, Nat.sub_diag, firstn_O, app_nil_r. reflexivity.
Qed.
Lemma slice_whole : forall a, slice a 0 (zlen a) = a.
Proof. intros. unfold slice, zlen. rewrite Nat2Z.id. simpl. apply firstn_all. Qed.

Lemma sumEqb_true : forall a b, sumEqb a b = true -> a = Some b.
Proof. intros [a|] b; simpl; [|discriminate]. intros H. apply strEqb_eq in H. congruence. Qed.

Section Run.
  Variable sha1 : list Z -> list Z.
  Variable cfg : bcfg.

  Definition repoSame (r : repo) (path : rpath) (f : bfile) : Prop :=
    exists whole, r path = Some whole /\ bfSizeRepo f = zlen whole /\
      match bfRepoChecksum f with Some s => s = sha1 whole | None => bfChecksum f = Some (sha1 whole) end.
  Definition copied (id : Z) (f : bfile) (env : readEnv) (whole : list Z) (b : bres) : Prop :=
    exists c, let i := slice whole (brOffset b) (brRepoSize b) in
      i = bcImage cfg id (brOffset b) f c /\ zlen i = brRepoSize b /\ brCopySize b = zlen c /\ brChecksum b = Some (sha1 c) /\
      brRepoChecksum b = (if bcFiltered cfg || isBlock cfg f then Some (sha1 i) else None) /\
      brMapSize b = (if isBlock cfg f then bcMapSize cfg id (brOffset b) f c else 0) /\ readCopy env f c.

  (** ** checks *)
  Lemma checkFile_spec : forall r path f env b r', checkFile sha1 r path f env = Ok (b, r') ->
    brName b = bfName f /\ (forall q, q <> path -> r' q = r q) /\ (bfResume f = false -> r' = r) /\
    match brResult b with
    | CopyCopy => r' = r
    | CopyNoOp => r' = r /\ bfReference f <> None /\ bfDelta f = true /\ readSame sha1 env f
    | CopyChecksum => r' = r /\ bfResume f = true /\ repoSame r path f
    | CopySkip => bfDelta f = true /\ reDelta env = None
    | CopyTruncate => False
    end.
  Proof.
    intros r path f env b r' H. unfold checkFile in H.
    set (copy := mkBres (bfName f) CopyCopy false 0 None None 0 0 0) in *.
    assert (Hrepo : forall b0 m0 (Hb0 : brName b0 = bfName f /\ match brResult b0 with CopyCopy => True
                       | CopyNoOp => bfReference f <> None /\ bfDelta f = true /\ readSame sha1 env f
                       | CopySkip => bfDelta f = true /\ reDelta env = None | _ => False end),
      (if bfResume f then
      match brResult b0 with
      | CopySkip => Ok (b0, repoPut r path None)
      | _ =>
          if negb (bfDelta f) || m0 then
            match r path with
            | None => Err EFileMissing
            | Some b =>
                if (bfSizeRepo f =? zlen b) && sumEqb (match bfRepoChecksum f with Some s => Some s | None => bfChecksum f end) (sha1 b) then
                  Ok (mkBres (bfName f) CopyChecksum false (bfSize f) (bfChecksum f) None 0 0 0, r)
                else Ok (mkBres (brName b0) (brResult b0) true (brCopySize b0) (brChecksum b0) (brRepoChecksum b0) 0 0 0, r)
            end
          else Ok (b0, r)
      end
      else Ok (b0, r)) = Ok (b, r') ->
      brName b = bfName f /\ (forall q, q <> path -> r' q = r q) /\ (bfResume f = false -> r' = r) /\
    match brResult b with
    | CopyCopy => r' = r
    | CopyNoOp => r' = r /\ bfReference f <> None /\ bfDelta f = true /\ readSame sha1 env f
    | CopyChecksum => r' = r /\ bfResume f = true /\ repoSame r path f
    | CopySkip => bfDelta f = true /\ reDelta env = None
    | CopyTruncate => False
    end).
    { clear H. intros b0 m0 [Hn Hr] H. destruct (bfResume f) eqn:R.
      - destruct (brResult b0) eqn:Eb; try contradiction.
        + destruct (negb (bfDelta f) || m0).
          * destruct (r path) as [w|] eqn:Ew; [|discriminate].
            destruct ((bfSizeRepo f =? zlen w) && _) eqn:Ec; injection H as <- <-; cbn.
            -- apply andb_prop in Ec. destruct Ec as [E1 E2]. apply Z.eqb_eq in E1. apply sumEqb_true in E2.
               repeat split; auto. exists w. repeat split; auto. destruct (bfRepoChecksum f); congruence.
            -- repeat split; auto; congruence.
          * injection H as <- <-. rewrite Eb. repeat split; auto; congruence.
        + injection H as <- <-. rewrite Eb. repeat split; auto; try tauto; try congruence. intros q Hq. apply repoPut_other. exact Hq.
        + destruct (negb (bfDelta f) || m0).
          * destruct (r path) as [w|] eqn:Ew; [|discriminate].
            destruct ((bfSizeRepo f =? zlen w) && _) eqn:Ec; injection H as <- <-; cbn.
            -- apply andb_prop in Ec. destruct Ec as [E1 E2]. apply Z.eqb_eq in E1. apply sumEqb_true in E2.
               repeat split; auto. exists w. repeat split; auto. destruct (bfRepoChecksum f); congruence.
            -- repeat split; auto; try tauto; congruence.
          * injection H as <- <-. rewrite Eb. repeat split; auto; try tauto; congruence.
      - injection H as <- <-. repeat split; auto. destruct (brResult b0); try contradiction; tauto. }
    destruct (bfDelta f) eqn:D.
    - unfold pgRead in H. destruct (reDelta env) as [c|] eqn:Ed.
      + cbn in H. set (c' := if reExact env then firstn (Z.to_nat (bfSizeOriginal f)) c else c) in *.
        destruct ((bfSize f =? zlen c') && sumEqb (bfChecksum f) (sha1 c')) eqn:Em.
        * apply andb_prop in Em. destruct Em as [E1 E2]. apply Z.eqb_eq in E1. apply sumEqb_true in E2.
          destruct (bfReference f) eqn:Rf; refine (Hrepo _ true _ H); cbn; repeat split; auto; try congruence.
          exists c'. split; [left; exists c; split; [exact Ed|reflexivity]|]. auto.
        * refine (Hrepo _ false _ H). cbn. auto.
      + destruct (rePgControl env); cbn in H; [discriminate|]. refine (Hrepo _ false _ H). cbn. auto.
    - refine (Hrepo copy false _ H). cbn. auto.
  Qed.

  (** What is known of a file after the checks *)
  Definition checked (r : repo) (path : rpath) (fe : bfile * readEnv) (b : bres) : Prop :=
    brName b = bfName (fst fe) /\
    match brResult b with
    | CopyCopy => True
    | CopyNoOp => bfReference (fst fe) <> None /\ bfDelta (fst fe) = true /\ readSame sha1 (snd fe) (fst fe)
    | CopyChecksum => bfResume (fst fe) = true /\ repoSame r path (fst fe)
    | CopySkip => bfDelta (fst fe) = true /\ reDelta (snd fe) = None
    | CopyTruncate => False
    end.
  Lemma checkFiles_spec : forall path files r l r', checkFiles sha1 r path files = Ok (l, r') ->
    ((forall fe, In fe files -> bfResume (fst fe) = false) \/ length files = 1%nat) ->
    (forall q, q <> path -> r' q = r q) /\ Forall2 (checked r' path) files l.
  Proof.
    intros path files r l r' H [Hno|Hone].
    - assert (r' = r /\ Forall2 (checked r path) files l) as [-> HF].
      { revert r l r' H. induction files as [|[f env] files IH]; intros r l r' H; cbn in H.
        - injection H as <- <-. split; [reflexivity|constructor].
        - destruct (checkFile sha1 r path f env) as [[b r1]| |] eqn:E; cbn in H; try discriminate.
          destruct (checkFiles sha1 r1 path files) as [[l1 r2]| |] eqn:E2; cbn in H; try discriminate.
          injection H as <- <-. destruct (checkFile_spec _ _ _ _ _ _ E) as (Hn & _ & Hr & Hm).
          specialize (Hr (Hno (f, env) (or_introl eq_refl))). subst r1.
          destruct (IH (fun fe Hfe => Hno fe (or_intror Hfe)) _ _ _ E2) as [-> HF]. split; [reflexivity|].
          constructor; [|exact HF]. split; [exact Hn|]. cbn. destruct (brResult b); tauto. }
      split; auto.
    - destruct files as [|[f env] [|]]; try discriminate. cbn in H.
      destruct (checkFile sha1 r path f env) as [[b r1]| |] eqn:E; cbn in H; try discriminate.
      injection H as <- <-. destruct (checkFile_spec _ _ _ _ _ _ E) as (Hn & Ho & Hr & Hm). split; [exact Ho|].
      constructor; [|constructor]. split; [exact Hn|]. cbn. destruct (brResult b); try tauto. destruct Hm as (-> & H1 & H2). tauto.
  Qed.

  (** ** copies *)
  Definition wbytes (w : option (list Z)) : list Z := match w with Some w => w | None => [] end.
  Definition done (id : Z) (fe : bfile * readEnv) (b0 : bres) (w : option (list Z)) (b : bres) : Prop :=
    brName b = brName b0 /\
    match brResult b with
    | CopyCopy => brResult b0 = CopyCopy /\ w <> None /\ copied id (fst fe) (snd fe) (wbytes w) b
    | CopyNoOp => brResult b0 = CopyNoOp \/ bfReference (fst fe) <> None /\ readSame sha1 (snd fe) (fst fe)
    | CopyChecksum => brResult b0 = CopyChecksum
    | CopySkip => brResult b0 = CopySkip \/ reCopy (snd fe) = None
    | CopyTruncate => brResult b0 = CopyTruncate \/ id <> 0 /\ readCopy (snd fe) (fst fe) [] /\ brCopySize b = 0 /\ brChecksum b = Some (sha1 [])
    end.
  Lemma copied_extend : forall id f env w t b, 0 <= brOffset b -> zlen w >= brOffset b + brRepoSize b -> copied id f env w b -> copied id f env (w ++ t) b.
  Proof.
    intros id f env w t b H0 Hl (c & Hc). exists c. cbn in *. pose proof (zlen_nonneg (slice w (brOffset b) (brRepoSize b))) as Hp.
    assert (Hs : slice (w ++ t) (brOffset b) (brRepoSize b) = slice w (brOffset b) (brRepoSize b)).
    { unfold slice. rewrite skipn_app, firstn_app. destruct Hc as (_ & Hz & _).
      replace (Z.to_nat (brRepoSize b) - length (skipn (Z.to_nat (brOffset b)) w))%nat with 0%nat.
      2: { rewrite skipn_length. unfold zlen in *. lia. }
      rewrite firstn_O, app_nil_r. reflexivity. }
    rewrite Hs. exact Hc.
  Qed.

  Lemma copyFile_spec : forall id f env b w off b' w' off', copyFile sha1 cfg id f env b w off = Ok (b', w', off') -> off = zlen (wbytes w) ->
    off' = zlen (wbytes w') /\ (w <> None -> w' <> None) /\ (exists t, wbytes w' = wbytes w ++ t) /\ (brResult b <> CopyCopy -> w' = w) /\
    (brResult b' = CopyCopy -> 0 <= brOffset b' /\ zlen (wbytes w') >= brOffset b' + brRepoSize b') /\
    done id (f, env) b w' b'.
  Proof.
    intros id f env b w off b' w' off' H Ho. unfold copyFile in H.
    destruct (brResult b) eqn:Eb; [|injection H as <- <- <-; repeat split; auto; try (exists []; rewrite app_nil_r; reflexivity); rewrite ?Eb; try congruence; auto..].
    unfold pgRead in H. destruct (reCopy env) as [c|] eqn:Ec.
    - cbn in H. set (lim := reExact env && negb (rePgControl env)) in *.
      set (c' := if lim then firstn (Z.to_nat (bfSizeOriginal f)) c else c) in *.
      set (eof := reEof env || (zlen c' =? 0)) in *.
      destruct (eof && negb (id =? 0) && (zlen c' =? 0)) eqn:E1.
      { apply andb_prop in E1. destruct E1 as [E1 Ez]. apply andb_prop in E1. destruct E1 as [_ Ei].
        injection H as <- <- <-. cbn. repeat split; auto; try (exists []; rewrite app_nil_r; reflexivity); try congruence.
        right. apply negb_true_iff, Z.eqb_neq in Ei. cbn. repeat split; auto. exists c. split; [exact Ec|]. fold lim. fold c'.
        apply Z.eqb_eq in Ez. destruct c'; [reflexivity|]. unfold zlen in Ez. cbn in Ez. lia. }
      destruct (eof && _ && (zlen c' =? bfSize f) && sumEqb (bfChecksum f) (sha1 c')) eqn:E2.
      { apply andb_prop in E2. destruct E2 as [E2 Ek]. apply andb_prop in E2. destruct E2 as [E2 Ez]. apply andb_prop in E2. destruct E2 as [_ Er].
        apply sumEqb_true in Ek. apply Z.eqb_eq in Ez.
        injection H as <- <- <-. cbn. repeat split; auto; try (exists []; rewrite app_nil_r; reflexivity); try congruence.
        right. cbn. split. { destruct (bfReference f); congruence. }
        exists c'. split; [right; exists c; split; [exact Ec|reflexivity]|]. auto. }
      injection H as <- <- <-. cbn.
      set (i := bcImage cfg id off f c') in *.
      split. { rewrite zlen_app. unfold wbytes in *. destruct w; cbn in *; lia. }
      split; [congruence|].
      split. { exists i. destruct w; reflexivity. }
      split; [congruence|].
      split. { intros _. rewrite zlen_app. pose proof (zlen_nonneg (wbytes w)) as Hp. fold (wbytes w). lia. }
      unfold done. cbn. rewrite Eb. repeat split; auto; [congruence|].
      exists c'. cbn. fold (wbytes w). rewrite Ho. pose proof (slice_app (wbytes w) i []) as Hs. rewrite app_nil_r in Hs.
      rewrite Hs. unfold i. rewrite Ho. repeat split; auto. exists c. split; [exact Ec|reflexivity].
    - destruct (rePgControl env); cbn in H; [discriminate|]. injection H as <- <- <-. cbn.
      repeat split; auto; try (exists []; rewrite app_nil_r; reflexivity); try congruence. right. exact Ec.
  Qed.

  Lemma done_extend : forall id fe b0 w w' b, (exists t, wbytes w' = wbytes w ++ t) -> (w <> None -> w' <> None) ->
    (brResult b = CopyCopy -> 0 <= brOffset b /\ zlen (wbytes w) >= brOffset b + brRepoSize b) -> done id fe b0 w b -> done id fe b0 w' b.
  Proof.
    intros id fe b0 w w' b [t Ht] Hn Hl [H1 H2]. split; [exact H1|]. destruct (brResult b); auto.
    destruct H2 as (H2 & H3 & H4). repeat split; auto. rewrite Ht. destruct (Hl eq_refl). apply copied_extend; auto.
  Qed.

  Lemma copyFiles_spec : forall id files results w off l w', copyFiles sha1 cfg id files results w off = Ok (l, w') -> off = zlen (wbytes w) ->
    length results = length files ->
    (exists t, wbytes w' = wbytes w ++ t) /\ (w <> None -> w' <> None) /\
    (Forall (fun b => brResult b <> CopyCopy) results -> w' = w) /\
    length l = length files /\
    forall n fe b0, nth_error files n = Some fe -> nth_error results n = Some b0 -> exists b, nth_error l n = Some b /\ done id fe b0 w' b.
  Proof.
    intros id files. induction files as [|[f env] files IH]; intros results w off l w' H Ho Hlen; cbn in H.
    - injection H as <- <-. repeat split; auto; try (exists []; rewrite app_nil_r; reflexivity); try reflexivity.
      intros [|n] fe b0 Hf; discriminate.
    - destruct results as [|b results]; [discriminate|].
      destruct (copyFile sha1 cfg id f env b w off) as [[[b' w1] off1]| |] eqn:E; cbn in H; try discriminate.
      destruct (copyFiles sha1 cfg id files results w1 off1) as [[l1 w2]| |] eqn:E2; cbn in H; try discriminate.
      injection H as <- <-.
      destruct (copyFile_spec _ _ _ _ _ _ _ _ _ E Ho) as (Ho1 & Hn1 & [t1 Ht1] & Hc1 & Hl1 & Hd).
      destruct (IH _ _ _ _ _ E2 Ho1 ltac:(cbn in Hlen; lia)) as ([t2 Ht2] & Hn2 & Hc2 & Hlen2 & Hnth).
      split. { exists (t1 ++ t2). rewrite Ht2, Ht1, app_assoc. reflexivity. }
      split; [auto|].
      split. { intros HF. inversion HF; subst. rewrite Hc2 by assumption. auto. }
      split; [cbn; lia|].
      intros [|n] fe b0 Hf Hb; cbn in *.
      + injection Hf as <-. injection Hb as <-. exists b'. split; [reflexivity|].
        eapply done_extend; eauto.
      + eauto.
  Qed.

  (** ** one job *)
  Definition outcome (id : Z) (path : rpath) (r : repo) (fe : bfile * readEnv) (b : bres) : Prop :=
    brName b = bfName (fst fe) /\
    match brResult b with
    | CopyCopy => exists whole, r path = Some whole /\ copied id (fst fe) (snd fe) whole b
    | CopyNoOp => bfReference (fst fe) <> None /\ readSame sha1 (snd fe) (fst fe)
    | CopyChecksum => bfResume (fst fe) = true /\ repoSame r path (fst fe)
    | CopySkip => reDelta (snd fe) = None \/ reCopy (snd fe) = None
    | CopyTruncate => id <> 0 /\ readCopy (snd fe) (fst fe) [] /\ brCopySize b = 0 /\ brChecksum b = Some (sha1 [])
    end.

  Lemma Forall2_len : forall {A B} (P : A -> B -> Prop) l l', Forall2 P l l' -> length l = length l'.
  Proof. intros A B P l l' H. induction H; cbn; congruence. Qed.
  Lemma Forall2_nth : forall {A B} (P : A -> B -> Prop) l l', length l = length l' ->
    (forall n a, nth_error l n = Some a -> exists b, nth_error l' n = Some b /\ P a b) -> Forall2 P l l'.
  Proof.
    intros A B P l. induction l as [|a l IH]; intros [|b l'] Hl H; try discriminate; constructor.
    - destruct (H 0%nat a eq_refl) as (b' & Hb & HP). cbn in Hb. congruence.
    - apply IH; [cbn in Hl; lia|]. intros n x Hx. exact (H (Datatypes.S n) x Hx).
  Qed.
  Lemma Forall2_nth_error : forall {A B} (P : A -> B -> Prop) l l' n a, Forall2 P l l' -> nth_error l n = Some a -> exists b, nth_error l' n = Some b /\ P a b.
  Proof.
    intros A B P l l' n a HF. revert n. induction HF as [|x y l l' HP HF IH]; intros [|n] Hn; cbn in *; try discriminate.
    - injection Hn as <-. eauto.
    - eauto.
  Qed.

  Lemma backupFile_spec : forall r path id files l r', backupFile sha1 cfg r path id files = Ok (l, r') ->
    ((forall fe, In fe files -> bfResume (fst fe) = false) \/ length files = 1%nat) ->
    (forall q, q <> path -> r' q = r q) /\ Forall2 (outcome id path r') files l.
  Proof.
    intros r path id files l r' H Hres. unfold backupFile in H.
    destruct (checkFiles sha1 r path files) as [[l0 r0]| |] eqn:E; cbn in H; try discriminate.
    destruct (copyFiles sha1 cfg id files l0 None 0) as [[l1 w]| |] eqn:E2; cbn in H; try discriminate.
    injection H as <- <-.
    destruct (checkFiles_spec _ _ _ _ _ E Hres) as [Hq HF].
    pose proof (Forall2_len _ _ _ HF) as Hlen.
    destruct (copyFiles_spec _ _ _ _ _ _ _ E2 eq_refl (eq_sym Hlen)) as (_ & _ & Hnone & Hlen1 & Hnth).
    split. { intros q Hne. destruct w; [rewrite repoPut_other by exact Hne|]; auto. }
    apply Forall2_nth; [lia|]. intros n fe Hn.
    destruct (Forall2_nth_error _ _ _ _ _ HF Hn) as (b0 & Hb0 & Hname & Hchk).
    destruct (Hnth n fe b0 Hn Hb0) as (b & Hb & Hbn & Hd). exists b. split; [exact Hb|]. split; [congruence|].
    destruct (brResult b) eqn:Eb.
    - destruct Hd as (_ & Hw & Hc). destruct w as [w|]; [|congruence]. exists w. split; [apply repoPut_same|exact Hc].
    - rewrite Hd in Hchk. destruct Hchk as [Hr Hs]. split; [exact Hr|].
      destruct Hres as [Hno|Hone]. { apply nth_error_In in Hn. rewrite (Hno fe Hn) in Hr. discriminate. }
      assert (w = None) as ->.
      { apply Hnone. destruct l0 as [|x [|]]; cbn in Hlen; try lia. destruct n as [|[|]]; cbn in Hb0; try discriminate. injection Hb0 as ->.
        constructor; [|constructor]. rewrite Hd. discriminate. }
      exact Hs.
    - destruct Hd as [Hd|Hd]; [rewrite Hd in Hchk; contradiction|exact Hd].
    - destruct Hd as [Hd|Hd]; [rewrite Hd in Hchk; left; tauto|right; exact Hd].
    - destruct Hd as [Hd|Hd]; [rewrite Hd in Hchk; tauto|exact Hd].
  Qed.
End Run.
