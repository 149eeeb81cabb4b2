(** The matcher is right. *)
From Verif Require Import Base Str RegModel RegSpec.
Open Scope Z_scope.

Definition atBeg (b : str) : bool := match b with [] => true | _ => false end.

Lemma atBeg_app b c t : atBeg (b ++ c :: t) = false.
Proof. destruct b; reflexivity. Qed.

Lemma inRanges_spec rs c : inRanges rs c = true <-> exists r, In r rs /\ fst r <= c <= snd r.
Proof.
  unfold inRanges. rewrite existsb_exists. split; intros (r & Hi & H); exists r; (split; [exact Hi|]).
  - apply andb_prop in H as [A B]. lia.
  - apply andb_true_intro. lia.
Qed.

(** Only whether there is something before and after matters *)
Lemma matches_ctx r b m a : matches r b m a -> forall b' a', atBeg b = atBeg b' -> atBeg a = atBeg a' -> matches r b' m a'.
Proof.
  induction 1 as [b a|a|b|rs c b a H|rs c b a H|p q b m1 m2 a H1 IH1 H2 IH2|p q b m a H IH|p q b m a H IH|p b a|p b m1 m2 a H1 IH1 H2 IH2];
    intros b' a' Eb Ea.
  - constructor.
  - destruct b'; [constructor|discriminate].
  - destruct a'; [constructor|discriminate].
  - constructor; exact H.
  - constructor; exact H.
  - constructor.
    + apply IH1; [exact Eb|]. destruct m2; [exact Ea|reflexivity].
    + apply IH2; [|exact Ea]. destruct b, b', m1; try discriminate Eb; reflexivity.
  - apply MAltL; apply IH; assumption.
  - apply MAltR; apply IH; assumption.
  - constructor.
  - constructor.
    + apply IH1; [exact Eb|]. destruct m2; [exact Ea|reflexivity].
    + apply IH2; [|exact Ea]. destruct b, b', m1; try discriminate Eb; reflexivity.
Qed.

Lemma nullable_spec r b a : nullable r (atBeg b) (atBeg a) = true <-> matches r b [] a.
Proof.
  revert b a. induction r as [| |neg rs| | |p IHp q IHq|p IHp q IHq|p IHp]; intros b a; cbn [nullable].
  - split; [discriminate|inversion 1].
  - split; [constructor|reflexivity].
  - split; [discriminate|inversion 1].
  - split; [destruct b; [constructor|discriminate]|inversion 1; reflexivity].
  - split; [destruct a; [constructor|discriminate]|inversion 1; reflexivity].
  - rewrite andb_true_iff, IHp, IHq. split.
    + intros [A B]. apply (MCat p q b [] [] a); [exact A|]. rewrite app_nil_r. exact B.
    + intros H. remember [] as m eqn:Em in H. inversion H as [| | | | |p' q' b' m1 m2 a' H1 H2 E1 E2 E3 E4| | | |]; subst.
      apply app_eq_nil in E3 as [-> ->]. rewrite app_nil_r in H2. split; assumption.
  - rewrite orb_true_iff, IHp, IHq. split.
    + intros [A|A]; [apply MAltL|apply MAltR]; exact A.
    + inversion 1; subst; [left|right]; assumption.
  - split; [constructor|reflexivity].
Qed.

Lemma matches_mkCat p q b m a : matches (mkCat p q) b m a <-> matches (RCat p q) b m a.
Proof.
  destruct p; cbn [mkCat]; try tauto.
  - split; inversion 1 as [| | | | |p' q' b' m1 m2 a' H1 H2 E1 E2 E3 E4| | | |]; inversion H1.
  - split.
    + intros H. apply (MCat REps q b [] m a); [constructor|]. rewrite app_nil_r. exact H.
    + inversion 1 as [| | | | |p' q' b' m1 m2 a' H1 H2 E1 E2 E3 E4| | | |]; subst. inversion H1; subst. rewrite app_nil_r in H2. exact H2.
Qed.
Lemma matches_mkAlt p q b m a : matches (mkAlt p q) b m a <-> matches (RAlt p q) b m a.
Proof.
  assert (L : matches q b m a <-> matches (RAlt RNone q) b m a).
  { split; [apply MAltR|]. inversion 1 as [| | | | | |p' q' b' m' a' H1|p' q' b' m' a' H1| |]; subst; [inversion H1|exact H1]. }
  assert (R : matches p b m a <-> matches (RAlt p RNone) b m a).
  { split; [apply MAltL|]. inversion 1 as [| | | | | |p' q' b' m' a' H1|p' q' b' m' a' H1| |]; subst; [exact H1|inversion H1]. }
  destruct p, q; cbn [mkAlt]; tauto.
Qed.

Lemma deriv_spec r : forall b c m a, matches (deriv r (atBeg b) c) (b ++ [c]) m a <-> matches r b (c :: m) a.
Proof.
  induction r as [| |neg rs| | |p IHp q IHq|p IHp q IHq|p IHp]; intros b c m a; cbn [deriv].
  - split; inversion 1.
  - split; inversion 1.
  - destruct (inCls neg rs c) eqn:E; unfold inCls in E.
    + split.
      * inversion 1; subst. destruct neg; cbn [xorb] in E.
        -- apply MOut. intros r Hr Hc. rewrite (proj2 (inRanges_spec rs c)) in E; [discriminate|eauto].
        -- apply MIn. apply inRanges_spec. destruct (inRanges rs c); [reflexivity|discriminate].
      * inversion 1; subst; constructor.
    + split; [inversion 1|]. inversion 1 as [| | |rs' c' b' a' Hc|rs' c' b' a' Hc| | | | |]; subst; exfalso.
      * apply inRanges_spec in Hc. rewrite Hc in E. discriminate.
      * destruct (inRanges rs c) eqn:E2; [|discriminate]. apply inRanges_spec in E2 as (r & Hi & Hr). exact (Hc r Hi Hr).
  - split; inversion 1.
  - split; inversion 1.
  - rewrite matches_mkAlt. split.
    + inversion 1 as [| | | | | |p' q' b' m' a' H1|p' q' b' m' a' H1| |]; subst.
      * apply matches_mkCat in H1. inversion H1 as [| | | | |p' q' b' m1 m2 a' H2 H3 E1 E2 E3 E4| | | |]; subst.
        apply IHp in H2. change (c :: m1 ++ m2) with ((c :: m1) ++ m2). constructor; [exact H2|].
        rewrite <- app_assoc in H3. exact H3.
      * destruct (nullable p (atBeg b) false) eqn:E; [|inversion H1]. apply IHq in H1.
        apply (MCat p q b [] (c :: m) a); [|rewrite app_nil_r; exact H1].
        apply nullable_spec. exact E.
    + inversion 1 as [| | | | |p' q' b' m1 m2 a' H1 H2 E1 E2 E3 E4| | | |]; subst. destruct m1 as [|d m1].
      * cbn [app] in E3. subst m2. apply MAltR. pose proof (proj2 (nullable_spec p b (c :: m ++ a)) H1) as N. cbn [atBeg] in N.
        rewrite N. rewrite app_nil_r in H2. apply IHq. exact H2.
      * cbn [app] in E3. injection E3 as -> <-. apply MAltL. apply matches_mkCat. constructor.
        -- apply IHp. exact H1.
        -- rewrite <- app_assoc. exact H2.
  - rewrite matches_mkAlt. split.
    + inversion 1 as [| | | | | |p' q' b' m' a' H1|p' q' b' m' a' H1| |]; subst;
        [apply MAltL; apply IHp|apply MAltR; apply IHq]; exact H1.
    + inversion 1 as [| | | | | |p' q' b' m' a' H1|p' q' b' m' a' H1| |]; subst;
        [apply MAltL; apply IHp|apply MAltR; apply IHq]; exact H1.
  - rewrite matches_mkCat. split.
    + inversion 1 as [| | | | |p' q' b' m1 m2 a' H1 H2 E1 E2 E3 E4| | | |]; subst.
      apply IHp in H1. change (c :: m1 ++ m2) with ((c :: m1) ++ m2). constructor; [exact H1|].
      rewrite <- app_assoc in H2. exact H2.
    + intros H. remember (RStar p) as r eqn:Er. remember (c :: m) as cm eqn:Em. revert c m Em.
      induction H as [| | | | | | | |p' b a|p' b m1 m2 a H1 _ H2 IH2]; try discriminate Er; [intros c m Em; discriminate Em|].
      injection Er as ->. intros c m Em. destruct m1 as [|d m1].
      * cbn [app] in Em. rewrite app_nil_r in IH2. exact (IH2 eq_refl c m Em).
      * cbn [app] in Em. injection Em as -> <-. constructor.
        -- apply IHp. exact H1.
        -- rewrite <- app_assoc. exact H2.
Qed.

Lemma matchHere_spec s : forall r b, matchHere r (atBeg b) s = true <-> exists m a, s = m ++ a /\ matches r b m a.
Proof.
  induction s as [|c t IH]; intros r b; cbn [matchHere].
  - change true with (atBeg []) at 1. rewrite nullable_spec. split.
    + intros H. exists [], []. split; [reflexivity|exact H].
    + intros (m & a & E & H). symmetry in E. apply app_eq_nil in E as [-> ->]. exact H.
  - change false with (atBeg (c :: t)) at 1. rewrite orb_true_iff, nullable_spec.
    replace false with (atBeg (b ++ [c])) by apply atBeg_app. rewrite IH. split.
    + intros [H|(m & a & -> & H)].
      * exists [], (c :: t). split; [reflexivity|exact H].
      * exists (c :: m), a. split; [reflexivity|]. apply deriv_spec. exact H.
    + intros (m & a & E & H). destruct m as [|d m].
      * left. cbn [app] in E. subst a. exact H.
      * cbn [app] in E. injection E as <- ->. right. exists m, a. split; [reflexivity|]. apply deriv_spec. exact H.
Qed.

Lemma matchFrom_spec s : forall r b, matchFrom r (atBeg b) s = true <-> exists b' m a, s = b' ++ m ++ a /\ matches r (b ++ b') m a.
Proof.
  induction s as [|c t IH]; intros r b; cbn [matchFrom]; rewrite orb_true_iff, matchHere_spec.
  - split.
    + intros [(m & a & E & H)|H]; [|discriminate]. exists [], m, a. rewrite app_nil_r. split; assumption.
    + intros (b' & m & a & E & H). left. symmetry in E. apply app_eq_nil in E as [-> E]. rewrite app_nil_r in H. exists m, a. split; [symmetry; exact E|exact H].
  - replace false with (atBeg (b ++ [c])) by apply atBeg_app. rewrite IH. split.
    + intros [(m & a & E & H)|(b' & m & a & -> & H)].
      * exists [], m, a. rewrite app_nil_r. split; assumption.
      * exists (c :: b'), m, a. split; [reflexivity|]. rewrite <- app_assoc in H. exact H.
    + intros (b' & m & a & E & H). destruct b' as [|d b'].
      * left. exists m, a. rewrite app_nil_r in H. split; assumption.
      * cbn [app] in E. injection E as <- ->. right. exists b', m, a. split; [reflexivity|]. rewrite <- app_assoc. exact H.
Qed.

Theorem regexec_spec r s : regexec r s = true <-> found r s.
Proof. unfold regexec, found. change true with (atBeg []) at 1. rewrite matchFrom_spec. reflexivity. Qed.
