From Verif Require Import Base Str ConvertModel ManifestPackModel ManifestPackSpec ManifestPackProof.
Open Scope Z_scope.

Lemma extends_refl x : 0 <= mxMode x < 2 ^ 32 -> extends x x.
Proof. intros H. split; [exists []; now rewrite app_nil_r|]. split; [exists []; now rewrite app_nil_r|exact H]. Qed.
Lemma extends_trans a b c : extends a b -> extends b c -> extends a c.
Proof.
  intros ((r & Er) & (o & Eo) & _) ((r' & Er') & (o' & Eo') & H). split; [exists (r ++ r'); now rewrite Er', Er, app_assoc|].
  split; [exists (o ++ o'); now rewrite Eo', Eo, app_assoc|exact H].
Qed.
Lemma same_trans a b c : sameDefaults a b -> sameDefaults b c -> sameDefaults a c.
Proof. intros (A1 & A2 & A3) (B1 & B2 & B3). unfold sameDefaults. repeat split; congruence. Qed.
Lemma addMissing_ext l s : exists e, strLstAddIfMissing l s = l ++ e /\ In s (l ++ e) /\ (length e <= 1)%nat.
Proof.
  unfold strLstAddIfMissing. destruct (existsb (fun x => strEqb x s) l) eqn:E.
  - exists []. rewrite app_nil_r. split; [reflexivity|]. split; [|cbn; lia]. apply existsb_exists in E as (y & Hy & Ey). apply strEqb_eq in Ey. now subst.
  - exists [s]. split; [reflexivity|]. split; [apply in_or_app; right; now left|cbn; lia].
Qed.
Lemma cache_ok x o : 0 <= mxMode x < 2 ^ 32 -> extends x (ownerCache x o) /\ sameDefaults x (ownerCache x o) /\
  mxReferences (ownerCache x o) = mxReferences x /\ (forall s, o = Some s -> In s (mxOwners (ownerCache x o))) /\
  (forall s, In s (mxOwners x) -> In s (mxOwners (ownerCache x o))) /\ (length (mxOwners (ownerCache x o)) <= length (mxOwners x) + 1)%nat.
Proof.
  intros H. destruct o as [s|]; cbn [ownerCache].
  - destruct (addMissing_ext (mxOwners x) s) as (e & E & Hi & Hl). rewrite E. cbn [mxOwners mxReferences]. split.
    { split; [exists []; now rewrite app_nil_r|]. split; [now exists e|exact H]. }
    split; [repeat split|]. split; [reflexivity|]. split; [intros s' [= <-]; exact Hi|]. split; [intros s' Hs; apply in_or_app; now left|]. rewrite app_length. lia.
  - split; [now apply extends_refl|]. split; [repeat split|]. split; [reflexivity|]. split; [discriminate|]. split; [auto|lia].
Qed.
Lemma stored_same x x' f : sameDefaults x x' -> stored x x' f = stored x x f.
Proof. intros (H1 & H2 & H3). unfold stored. now rewrite H1, H2, H3. Qed.
Lemma stored_same2 x x' f : sameDefaults x x' -> stored x' x' f = stored x x f.
Proof. intros (H1 & H2 & H3). unfold stored. now rewrite H1, H2, H3. Qed.
Lemma owner_refl d o : owner d d o = o.
Proof. destruct o as [s|]; cbn; [|reflexivity]. destruct d as [s'|]; [|reflexivity]. destruct (strEqb s s') eqn:E; [apply strEqb_eq in E; now subst|reflexivity]. Qed.
Lemma stored_complete x f : complete f -> stored x x f = f.
Proof.
  intros [H1 H2]. unfold stored. rewrite !owner_refl. destruct f; cbn in *. f_equal.
  - destruct (Z.eqb_spec mfMode (mxMode x)); congruence.
  - destruct (Z.eqb_spec mfBundleId 0); [symmetry; auto|reflexivity].
  - destruct (Z.eqb_spec mfBlockSize 0) as [e|e]; [destruct (H2 e); congruence|reflexivity].
  - destruct (Z.eqb_spec mfBlockSize 0) as [e|e]; [destruct (H2 e); congruence|reflexivity].
Qed.

Lemma Forall2_nthE {A B} (P : A -> B -> Prop) l m : Forall2 P l m -> forall i, match nth_error l i, nth_error m i with Some a, Some b => P a b | None, None => True | _, _ => False end.
Proof. induction 1; intros [|i]; cbn; auto. apply IHForall2. Qed.
Lemma Forall2_lenE {A B} (P : A -> B -> Prop) l m : Forall2 P l m -> length l = length m.
Proof. induction 1; cbn; congruence. Qed.
Lemma Forall2_set {A B} (P : A -> B -> Prop) l m a b : P a b -> Forall2 P l m -> forall i, Forall2 P (firstn i l ++ a :: skipn (S i) l) (firstn i m ++ b :: skipn (S i) m).
Proof.
  intros Hab. induction 1 as [|x y l m Hxy H IH]; intros i; [destruct i; cbn; auto|].
  destruct i as [|i]; cbn; [constructor; auto|]. constructor; [exact Hxy|]. apply IH.
Qed.
Lemma Forall2_impl {A B} (P Q : A -> B -> Prop) l m : (forall a b, P a b -> Q a b) -> Forall2 P l m -> Forall2 Q l m.
Proof. intros H. induction 1; constructor; auto. Qed.

Section Run.
Variable x0 : mctx.
Hypothesis Hmode : 0 <= mxMode x0 < 2 ^ 32.
Definition good (s : mfiles) (p : list Z) (f : mfile) : Prop :=
  forall x', extends (msCtx s) x' -> sameDefaults x0 x' -> manifestFileUnpack x' (msBase s) p = Ok (stored x0 x0 f).
Definition inv (s : mfiles) (l : list mfile) : Prop :=
  sameDefaults x0 (msCtx s) /\ (msBase s <> -1 \/ l = []) /\ timeOk (msBase s) /\ Forall2 (good s) (msPacks s) l.
Lemma fileRange_ok f b : fileRange f -> timeOk b -> fileOk b f.
Proof. intros [H Ht] Hb. unfold fileOk, timeOk in *. intuition lia. Qed.
Lemma base_ok b f : timeOk b -> fileRange f -> timeOk (baseTimeSet b f).
Proof. intros Hb [_ Ht]. unfold baseTimeSet. destruct (b =? -1); assumption. Qed.
Lemma base_set b f : (b <> -1 \/ mfTimestamp f <> -1) -> baseTimeSet b f <> -1.
Proof. unfold baseTimeSet. destruct (Z.eqb_spec b (-1)); intuition. Qed.

Lemma good_move s s' l : inv s l -> extends (msCtx s) (msCtx s') -> sameDefaults x0 (msCtx s') -> (msBase s' = msBase s \/ l = []) ->
  Forall2 (good s') (msPacks s) l.
Proof.
  intros (_ & _ & _ & HF) He Hs [Hb|Hb].
  - eapply Forall2_impl; [|exact HF]. intros p f Hg x' Hx Hd. rewrite Hb. apply Hg; [eapply extends_trans; eassumption|exact Hd].
  - subst l. inversion HF. constructor.
Qed.

Theorem run_ok ops : forall s l refs owners, inv s l -> opsOk refs owners (length l) ops ->
  incl refs (mxReferences (msCtx s)) -> incl owners (mxOwners (msCtx s)) ->
  Z.of_nat (length (mxReferences (msCtx s))) + Z.of_nat (length (mxOwners (msCtx s))) + 2 * Z.of_nat (length ops) < 2 ^ 32 ->
  (forall o f, In o ops -> opFile o = Some f -> fileRange f /\ (msBase s <> -1 \/ mfTimestamp f <> -1)) ->
  exists s', packRun s ops = Ok s' /\ inv s' (fold_left fileStep ops l).
Proof.
  induction ops as [|o ops IH]; intros s l refs owners Hi Ho Hr Hw Hlen Hf; [exists s; auto|]. cbn [packRun fold_left].
  assert (Hmode' : 0 <= mxMode (msCtx s) < 2 ^ 32) by (destruct Hi as ((_ & _ & ->) & _); exact Hmode).
  pose proof Hi as (Hs & Hb & Ht & HF). cbn [length] in Hlen. destruct o as [f|i f|r]; cbn [packStep fileStep].
  - destruct (Hf (OpAdd f) f (or_introl eq_refl) eq_refl) as [Hfr Hft].
    inversion Ho as [|? ? ? ? ? Hrf Hrest| |]; subst. unfold manifestFileAdd. cbv zeta.
    destruct (cache_ok (msCtx s) (mfUser f) Hmode') as (A1 & A2 & A3 & A4 & A5 & A6). set (x1 := ownerCache (msCtx s) (mfUser f)) in *.
    assert (Hm1 : 0 <= mxMode x1 < 2 ^ 32) by (destruct A2 as (_ & _ & ->); exact Hmode').
    destruct (cache_ok x1 (mfGroup f) Hm1) as (B1 & B2 & B3 & B4 & B5 & B6). set (x2 := ownerCache x1 (mfGroup f)) in *.
    assert (Hnk : namesKnown x2 f).
    { unfold namesKnown, lenOk. rewrite B3, A3. split; [lia|]. split; [lia|]. split; [intros r E; apply Hr; auto|]. split; [intros u E; apply B5; auto|exact B4]. }
    destruct (pack_ok x2 (msBase s) f) as (p & Ep & Up); [apply fileRange_ok; [exact Hfr|now apply base_ok]|exact Hnk|].
    rewrite Ep. cbn [bind]. set (s1 := mkMfiles x2 (baseTimeSet (msBase s) f) (msPacks s ++ [p])).
    assert (Hd2 : sameDefaults x0 x2) by (eapply same_trans; [exact Hs|]; eapply same_trans; eassumption).
    assert (Hi1 : inv s1 (l ++ [f])).
    { unfold inv, s1. cbn [msCtx msBase msPacks]. split; [exact Hd2|]. split; [left; now apply base_set|]. split; [now apply base_ok|]. apply Forall2_app.
      - apply (good_move s s1 l Hi); [cbn; eapply extends_trans; eassumption|exact Hd2|]. cbn. destruct Hb as [Hb|Hb]; [|now right]. left. unfold baseTimeSet. destruct (Z.eqb_spec (msBase s) (-1)); congruence.
      - constructor; [|constructor]. intros x' Hx Hd. cbn [msCtx msBase] in *. rewrite (Up x' Hx). f_equal. rewrite (stored_same x2 x').
        + now apply stored_same2.
        + destruct Hd as (D1 & D2 & D3), Hd2 as (C1 & C2 & C3). unfold sameDefaults. repeat split; congruence. }
    eapply (IH s1 (l ++ [f]) refs _ Hi1); [rewrite app_length; cbn [length]; rewrite Nat.add_1_r; exact Hrest| | | |]; cbn [s1 msCtx msBase] in *.
    + rewrite B3, A3. exact Hr.
    + intros z Hz. apply in_app_or in Hz as [Hz|Hz]; [destruct (mfUser f) as [u|] eqn:Eu; [|destruct Hz]; destruct Hz as [<-|[]]; apply B5, A4; reflexivity|].
      apply in_app_or in Hz as [Hz|Hz]; [destruct (mfGroup f) as [g|] eqn:Eg; [|destruct Hz]; destruct Hz as [<-|[]]; apply B4; reflexivity|]. apply B5, A5, Hw, Hz.
    + unfold s1; cbn [msCtx]. rewrite B3, A3. lia.
    + intros o f' Hin E. destruct (Hf o f' (or_intror Hin) E) as [H1 H2]. split; [exact H1|]. left. now apply base_set.
  - destruct (Hf (OpUpdate i f) f (or_introl eq_refl) eq_refl) as [Hfr Hft].
    inversion Ho as [| |? ? ? ? ? ? Hin Hrf Hu Hg Hrest|]; subst. unfold manifestFileUpdateByIdx.
    rewrite (Forall2_lenE _ _ _ HF). destruct (Nat.ltb_spec i (length l)); [|lia].
    assert (Hnk : namesKnown (msCtx s) f).
    { unfold namesKnown, lenOk. split; [lia|]. split; [lia|]. split; [intros r E; apply Hr; auto|]. split; [intros u E; apply Hw; auto|intros g E; apply Hw; auto]. }
    destruct (pack_ok (msCtx s) (msBase s) f) as (p & Ep & Up); [apply fileRange_ok; [exact Hfr|now apply base_ok]|exact Hnk|].
    rewrite Ep. cbn [bind]. set (s1 := mkMfiles (msCtx s) (baseTimeSet (msBase s) f) (firstn i (msPacks s) ++ p :: skipn (S i) (msPacks s))).
    assert (Hne : msBase s <> -1) by (destruct Hb as [Hb|Hb]; [exact Hb|subst l; cbn in Hin; lia]).
    assert (Eb : baseTimeSet (msBase s) f = msBase s) by (unfold baseTimeSet; destruct (Z.eqb_spec (msBase s) (-1)); congruence).
    assert (Hi1 : inv s1 (firstn i l ++ f :: skipn (S i) l)).
    { unfold inv, s1. cbn [msCtx msBase msPacks]. rewrite Eb. split; [exact Hs|]. split; [now left|]. split; [exact Ht|]. apply Forall2_set; [|exact HF].
      intros x' Hx Hd. cbn [msCtx msBase] in *. rewrite <- Eb at 1. rewrite (Up x' Hx). f_equal. rewrite (stored_same (msCtx s) x').
      - now apply stored_same2.
      - destruct Hd as (D1 & D2 & D3), Hs as (C1 & C2 & C3). unfold sameDefaults. repeat split; congruence. }
    apply (IH s1 _ refs owners Hi1).
    + replace (length (firstn i l ++ f :: skipn (S i) l)) with (length l); [exact Hrest|]. rewrite app_length, firstn_length_le by lia. cbn [length]. rewrite skipn_length. lia.
    + exact Hr.
    + exact Hw.
    + cbn [s1 msCtx]. unfold s1; cbn [msCtx]. lia.
    + intros o f' Hin' E. cbn [s1 msBase]. unfold s1; cbn [msBase]. rewrite Eb. destruct (Hf o f' (or_intror Hin') E). auto.
  - inversion Ho; subst. cbn [bind]. set (s1 := manifestReferenceAdd s r).
    assert (Hi1 : inv s1 l).
    { unfold inv, s1, manifestReferenceAdd. cbn [msCtx msBase msPacks]. split; [exact Hs|]. split; [exact Hb|]. split; [exact Ht|].
      apply (good_move s (manifestReferenceAdd s r) l Hi); [|exact Hs|now left]. split; [cbn; now exists [r]|]. split; [exists []; cbn; now rewrite app_nil_r|exact Hmode']. }
    apply (IH s1 l (refs ++ [r]) owners Hi1); [assumption| | | |].
    + unfold s1, manifestReferenceAdd. cbn. intros z Hz. apply in_app_or in Hz as [Hz|Hz]; apply in_or_app; [left; auto|right; auto].
    + exact Hw.
    + unfold s1, manifestReferenceAdd. cbn [msCtx mxReferences mxOwners]. rewrite app_length. cbn [length]. lia.
    + intros o f Hin E. exact (Hf o f (or_intror Hin) E).
Qed.
End Run.
