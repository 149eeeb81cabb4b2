From Verif Require Import Base Str ConvertModel NumModel WalExpireModel SpoolModel SpoolSpec SpoolProof PushModel PushSpec PushProof.
From Coq Require Import Permutation Sorted.
Open Scope Z_scope.

Section Push.
  Variables (sha1hex : data -> str) (encrypt : nat -> data -> data).
  Hypothesis Hsha : forall d, sum40 (sha1hex d).
  Notation push := (archivePushFile sha1hex encrypt).

  Definition findPhase (e : env) (w : repos) (a : pushArgs) : res (list bool * bool * list errEntry * list nat) :=
    if walIsSegment (paFile a) then pushFindLoop e w (paFile a) (sha1hex (paWal a)) (paModeCheck a) (paRepos a) false (paErrors a) []
    else Ok (repeat true (length (paRepos a)), true, paErrors a, []).
  Definition destName (a : pushArgs) : str :=
    if walIsSegment (paFile a) then paFile a ++ 45 :: sha1hex (paWal a) ++ match paExt a with Some x => x | None => [] end else paFile a.
  Definition outcome (errs : list errEntry) (warns : list nat) : res (list nat) := match errs with [] => Ok warns | _ => Err ECommand end.

  Lemma push_inv e w a w' r : push e w a = (w', r) ->
    (w' = w /\ forall x, r <> Ok x) \/
    exists cp any errs warns, paRepos a <> [] /\ findPhase e w a = Ok (cp, any, errs, warns) /\
      ((any = false /\ w' = w /\ r = outcome errs warns) \/
       (any = true /\ exists cp1 errs1 cp2 errs2 errs3, ioLoop (enOpen e) (paRepos a) cp errs = (cp1, errs1) /\
          writeLoop e (paRepos a) 0 (paChunks a) cp1 errs1 = (cp2, errs2) /\
          closeLoop encrypt e (paRepos a) cp2 (destName a) (concat (paChunks a)) w errs2 = (w', errs3) /\ r = outcome errs3 warns)).
  Proof.
    unfold archivePushFile. destruct (match paRepos a with [] => true | _ => false end) eqn:R; [intros [= <- <-]; left; split; [reflexivity|discriminate]|].
    destruct (if paHeaderCheck a && walIsSegment (paFile a) then _ else _) as [[]|k|]; [|intros [= <- <-]; left; split; [reflexivity|discriminate]..].
    fold (findPhase e w a). destruct (findPhase e w a) as [[[[cp any] errs] warns]|k|]; [|intros [= <- <-]; left; split; [reflexivity|discriminate]..].
    intros H. destruct any.
    - destruct (paReadError a); [injection H as <- <-; left; split; [reflexivity|discriminate]|]. right. exists cp, true, errs, warns. split; [destruct (paRepos a); congruence|]. split; [reflexivity|]. right. split; [reflexivity|].
      destruct (ioLoop (enOpen e) (paRepos a) cp errs) as [cp1 errs1] eqn:E1. destruct (writeLoop e (paRepos a) 0 (paChunks a) cp1 errs1) as [cp2 errs2] eqn:E2.
      assert (Ed : (match paExt a with Some x => if walIsSegment (paFile a) then (if walIsSegment (paFile a) then paFile a ++ 45 :: sha1hex (paWal a) else paFile a) ++ x
        else (if walIsSegment (paFile a) then paFile a ++ 45 :: sha1hex (paWal a) else paFile a) | None => (if walIsSegment (paFile a) then paFile a ++ 45 :: sha1hex (paWal a) else paFile a) end) = destName a).
      { unfold destName. destruct (paExt a), (walIsSegment (paFile a)); try reflexivity; [now rewrite <- app_assoc|now rewrite app_nil_r]. }
      rewrite Ed in H. destruct (closeLoop _ _ _ _ _ _ _ _) as [w3 errs3] eqn:E3. injection H as <- <-. exists cp1, errs1, cp2, errs2, errs3. auto.
    - injection H as <- <-. right. exists cp, false, errs, warns. split; [destruct (paRepos a); congruence|]. split; [reflexivity|]. left. auto.
  Qed.

  Lemma findPhase_ok e w a cp any errs warns : findPhase e w a = Ok (cp, any, errs, warns) ->
    length cp = length (paRepos a) /\ (exists t, errs = paErrors a ++ t) /\
    (isSegmentName (paFile a) -> cp = map (needsCopy e w (paFile a)) (paRepos a) /\ any = existsb (needsCopy e w (paFile a)) (paRepos a) /\
       (forall r f, In r (paRepos a) -> walSegmentFindOne e w r (paFile a) = Ok (Some f) -> firstn 40 (skipn (length (paFile a) + 1) f) = sha1hex (paWal a)) /\
       (errs = paErrors a -> forall r, In r (paRepos a) -> exists o, walSegmentFindOne e w r (paFile a) = Ok o)) /\
    (~ isSegmentName (paFile a) -> cp = repeat true (length (paRepos a)) /\ any = true).
  Proof.
    unfold findPhase. destruct (walIsSegment (paFile a)) eqn:S; intros H.
    - apply walIsSegment_spec in S. destruct (findLoop_ok _ _ _ _ _ _ _ _ _ _ _ _ _ H) as (C & A & T & X & O). split; [rewrite C; apply map_length|]. split; [exact T|]. split; [|contradiction]. intros _. auto.
    - injection H as <- <- <- <-. split; [apply repeat_length|]. split; [exists []; now rewrite app_nil_r|]. split; [|auto]. intros G. apply walIsSegment_spec in G. congruence.
  Qed.

  Lemma prefix_same {A} (x t1 t2 : list A) y z : y = x ++ t1 -> z = y ++ t2 -> z = x -> y = x /\ z = y.
  Proof. intros -> -> E. rewrite <- app_assoc in E. rewrite <- (app_nil_r x) in E at 2. apply app_inv_head, app_eq_nil in E. destruct E as (-> & ->). now rewrite !app_nil_r. Qed.
  Lemma outcome_ok errs warns x : outcome errs warns = Ok x -> errs = [].
  Proof. destruct errs; [reflexivity|discriminate]. Qed.

  Definition extOf (a : pushArgs) : str := match paExt a with Some x => x | None => [] end.
  (** The compression extension is a known one. *)
  Definition argsOk (a : pushArgs) : Prop := isExt (extOf a).

  Lemma dest_segment a : argsOk a -> isSegmentName (paFile a) -> segmentFile (paFile a) (sha1hex (paWal a)) (destName a).
  Proof.
    intros X S. unfold destName. rewrite (proj2 (walIsSegment_spec _) S). destruct S as (s & Hs & [E|E]); exists s, (extOf a); (split; [exact Hs|]); (split; [exact X|]).
    - left. rewrite E. auto.
    - right. rewrite E. split; [reflexivity|]. exists 46. rewrite <- app_assoc. reflexivity.
  Qed.

  Lemma nth_error_bool (l : list bool) k : nth k l false = true -> nth_error l k = Some true.
  Proof. intros H. destruct (nth_error l k) eqn:E; [now rewrite (nth_error_nth _ _ _ E) in H; subst|]. apply nth_error_None in E. rewrite nth_overflow in H by exact E. discriminate. Qed.
  Lemma map_needs e w f l k r : nth_error l k = Some r -> nth k (map (needsCopy e w f) l) false = needsCopy e w f r.
  Proof. intros H. erewrite nth_error_nth; [reflexivity|]. now rewrite nth_error_map, H. Qed.

  (** A repository found to need a copy has no file of the segment. *)
  Lemma needs_none e w f r : needsCopy e w f r = true -> matches w r f = [].
  Proof. unfold needsCopy. destruct (walSegmentFindOne e w r f) as [[g|]| |] eqn:E; try discriminate. intros _. now apply findOne_ok in E. Qed.

  (** ** What a push changes *)
  Lemma push_effect e w a w' r : argsOk a -> push e w a = (w', r) ->
    (forall i aid f, In f (w' i aid) -> In f (w i aid) \/ (f = (destName a, encrypt i (concat (paChunks a))) /\ exists rd, In rd (paRepos a) /\ sameRepo rd i aid)) /\
    (forall i aid f, In f (w i aid) -> In f (w' i aid) \/ (~ isSegmentName (paFile a) /\ fst f = paFile a /\ In (destName a, encrypt i (concat (paChunks a))) (w' i aid))) /\
    (forall i aid, (forall rd, In rd (paRepos a) -> sameRepo rd i aid -> isSegmentName (paFile a) /\ needsCopy e w (paFile a) rd = false) -> w' i aid = w i aid).
  Proof.
    intros X H. destruct (push_inv _ _ _ _ _ H) as [(-> & _)|(cp & any & errs & warns & Hne & Hf & [(_ & -> & _)|(_ & cp1 & errs1 & cp2 & errs2 & errs3 & E1 & E2 & E3 & _)])]; [repeat split; auto..|].
    destruct (findPhase_ok _ _ _ _ _ _ _ Hf) as (L & _ & Fs & Fn).
    destruct (ioLoop_spec _ _ _ _ _ _ L E1) as (L1 & _ & N1 & _). destruct (writeLoop_spec _ _ _ _ _ _ _ _ L1 E2) as (L2 & _ & N2 & _).
    destruct (closeLoop_spec sha1hex encrypt Hsha _ _ _ _ _ _ _ _ _ L2 E3) as (_ & A & B & D & _). split; [|split].
    - intros i aid f Hin. destruct (A i aid f Hin) as [K|(K & k & rd & K1 & K2 & K3)]; [now left|right]. split; [exact K|]. exists rd. split; [eapply nth_error_In; eauto|exact K3].
    - intros i aid f Hin. destruct (B i aid f Hin) as [K|(K & K' & k & rd & K1 & K2 & (-> & ->))]; [now left|right].
      destruct (isSegmentName_dec (paFile a)) as [S|S].
      + exfalso. destruct (Fs S) as (C & _). pose proof (N1 _ _ K1 (N2 _ _ K1 K2)) as K4. rewrite C, (map_needs _ _ _ _ _ _ K1) in K4. apply needs_none in K4.
        assert (G : In (destName a) (matches w rd (paFile a))); [|rewrite K4 in G; exact G]. apply matches_in. split.
        * unfold names. rewrite <- K. now apply in_map.
        * apply segmentMatch_spec; [exact S|]. exists (sha1hex (paWal a)). split; [apply Hsha|now apply dest_segment].
      + split; [exact S|]. split; [|exact K']. rewrite K. unfold destName. destruct (walIsSegment (paFile a)) eqn:Q; [apply walIsSegment_spec in Q; contradiction|reflexivity].
    - intros i aid Hn. apply D. intros k rd K1 K2 K3. destruct (Hn rd (nth_error_In _ _ K1) K3) as (S & Hc). destruct (Fs S) as (C & _).
      pose proof (N1 _ _ K1 (N2 _ _ K1 K2)) as K4. rewrite C, (map_needs _ _ _ _ _ _ K1) in K4. congruence.
  Qed.

  (** ** Success *)
  Lemma push_ok e w a w' warns : argsOk a -> push e w a = (w', Ok warns) ->
    paErrors a = [] /\ paRepos a <> [] /\ forall r, In r (paRepos a) -> exists name c, holds w' r name c /\
      ((c = encrypt (rdIdx r) (concat (paChunks a)) /\ name = destName a) \/
       (isSegmentName (paFile a) /\ holds w r name c /\ segmentFile (paFile a) (sha1hex (paWal a)) name)).
  Proof.
    intros X H. destruct (push_inv _ _ _ _ _ H) as [(_ & F)|(cp & any & errs & wn & Hne & Hf & C)]; [exfalso; now apply (F warns)|].
    destruct (findPhase_ok _ _ _ _ _ _ _ Hf) as (L & (t & T) & Fs & Fn).
    assert (Found : isSegmentName (paFile a) -> errs = [] -> forall r, In r (paRepos a) -> needsCopy e w (paFile a) r = false -> exists name c, holds w r name c /\ segmentFile (paFile a) (sha1hex (paWal a)) name).
    { intros S E r Hr Hn. destruct (Fs S) as (_ & _ & Sm & Q). assert (Ee : errs = paErrors a) by (rewrite T in E; apply app_eq_nil in E; rewrite T; destruct E as (E & E'); now rewrite E', app_nil_r).
      destruct (Q Ee r Hr) as ([f|] & Ho); [|unfold needsCopy in Hn; rewrite Ho in Hn; discriminate]. specialize (Sm r f Hr Ho). apply findOne_ok in Ho.
      assert (G : In f (matches w r (paFile a))) by (rewrite Ho; now left). apply matches_in in G. destruct G as (G1 & G2). apply holds_name in G1. destruct G1 as (c & Hc). exists f, c. split; [exact Hc|].
      apply segmentMatch_spec in G2; [|exact S]. destruct G2 as (sum & S40 & Sf). rewrite (segmentFile_sum _ _ _ S40 Sf) in Sm. now subst sum. }
    destruct C as [(-> & -> & E)|(-> & cp1 & errs1 & cp2 & errs2 & errs3 & E1 & E2 & E3 & E)]; symmetry in E; apply outcome_ok in E.
    - rewrite E in T. symmetry in T. apply app_eq_nil in T. destruct T as (T & _). split; [exact T|]. split; [exact Hne|]. intros r Hr.
      destruct (isSegmentName_dec (paFile a)) as [S|S]; [|destruct (Fn S); discriminate]. destruct (Fs S) as (_ & A & _).
      assert (Hn : needsCopy e w (paFile a) r = false).
      { destruct (needsCopy e w (paFile a) r) eqn:Y; [|reflexivity]. exfalso. symmetry in A. rewrite <- not_true_iff_false in A. apply A. apply existsb_exists. eauto. }
      destruct (Found S E r Hr Hn) as (name & c & H1 & H2). exists name, c. split; [exact H1|]. right. auto.
    - destruct (ioLoop_spec _ _ _ _ _ _ L E1) as (L1 & (t1 & T1) & N1 & Q1). destruct (writeLoop_spec _ _ _ _ _ _ _ _ L1 E2) as (L2 & (t2 & T2) & N2 & Q2).
      destruct (closeLoop_spec sha1hex encrypt Hsha _ _ _ _ _ _ _ _ _ L2 E3) as ((t3 & T3) & A & B & D & O). subst errs3. symmetry in T3. apply app_eq_nil in T3. destruct T3 as (T3 & ->).
      rewrite T3 in T2. symmetry in T2. apply app_eq_nil in T2. destruct T2 as (T2 & ->). rewrite T2 in T1. symmetry in T1. apply app_eq_nil in T1. destruct T1 as (T1 & ->).
      rewrite T1 in T. symmetry in T. apply app_eq_nil in T. destruct T as (T & _). split; [exact T|]. split; [exact Hne|]. rewrite T2, T1 in Q1. rewrite T3, T2 in Q2. rewrite (Q2 eq_refl), (Q1 eq_refl) in *. clear Q1 Q2. rewrite T3 in O.
      intros r Hr. destruct (In_nth_error _ _ Hr) as (k & Hk). specialize (O eq_refl k r Hk).
      destruct (isSegmentName_dec (paFile a)) as [S|S].
      + destruct (Fs S) as (Cc & _). rewrite Cc in O, B, D. destruct (needsCopy e w (paFile a) r) eqn:Hn.
        * exists (destName a), (encrypt (rdIdx r) (concat (paChunks a))). split; [apply O; now rewrite (map_needs _ _ _ _ _ _ Hk)|]. left. auto.
        * destruct (Found S T1 r Hr Hn) as (name & c & H1 & H2). exists name, c. split; [|right; auto]. unfold holds in *. destruct (B _ _ _ H1) as [K|(_ & _ & k' & r' & K1 & K2 & (K3 & K4))]; [exact K|].
          exfalso. rewrite (map_needs _ _ _ _ _ _ K1) in K2. apply needs_none in K2. assert (G : In name (matches w r' (paFile a))); [|rewrite K2 in G; exact G]. apply matches_in. split.
          { unfold names. rewrite <- K3, <- K4. apply (in_map fst) in H1. exact H1. }
          { apply segmentMatch_spec; [exact S|]. eauto. }
      + destruct (Fn S) as (Cc & _). exists (destName a), (encrypt (rdIdx r) (concat (paChunks a))). split; [|left; auto]. apply O. rewrite Cc. assert (k < length (paRepos a))%nat by (apply nth_error_Some; congruence).
        rewrite (nth_indep _ false true) by (rewrite repeat_length; exact H0). apply nth_repeat.
  Qed.

  (** ** A different segment in the repository *)
  Lemma different_find e w r f sum name c : isSegmentName f -> sum40 sum -> segmentFile f sum name -> holds w r name c ->
    (exists k, walSegmentFindOne e w r f = Err k) \/ walSegmentFindOne e w r f = Ok (Some name).
  Proof.
    intros S S40 Sf Hh. assert (G : In name (matches w r f)). { apply matches_in. split; [apply holds_name; eauto|]. apply segmentMatch_spec; eauto. }
    destruct (walSegmentFindOne e w r f) as [[g|]|k|] eqn:E; [|apply findOne_ok in E; rewrite E in G; destruct G|eauto|now apply findOne_no_ub in E].
    apply findOne_ok in E. rewrite E in G. destruct G as [<-|[]]. now right.
  Qed.
  Lemma push_different e w a r sum name c : isSegmentName (paFile a) -> In r (paRepos a) -> sum40 sum -> segmentFile (paFile a) sum name -> holds w r name c ->
    sum <> sha1hex (paWal a) -> argsOk a -> forall x, snd (push e w a) <> Ok x.
  Proof.
    intros S Hr S40 Sf Hh Hd X x. destruct (push e w a) as [w' res] eqn:E. cbn [snd]. intros ->. destruct (push_inv _ _ _ _ _ E) as [(_ & F)|(cp & any & errs & wn & Hne & Hf & C)]; [now apply (F x)|].
    destruct (findPhase_ok _ _ _ _ _ _ _ Hf) as (L & (t & T) & Fs & _). destruct (Fs S) as (_ & _ & Sm & Q).
    assert (Ee : errs = paErrors a).
    { destruct (push_ok _ _ _ _ _ X E) as (P & _). destruct C as [(_ & _ & G)|(_ & cp1 & errs1 & cp2 & errs2 & errs3 & E1 & E2 & E3 & G)]; symmetry in G; apply outcome_ok in G.
      - congruence.
      - destruct (ioLoop_spec _ _ _ _ _ _ L E1) as (L1 & (t1 & T1) & _). destruct (writeLoop_spec _ _ _ _ _ _ _ _ L1 E2) as (L2 & (t2 & T2) & _).
        destruct (closeLoop_spec sha1hex encrypt Hsha _ _ _ _ _ _ _ _ _ L2 E3) as ((t3 & T3) & _). rewrite P. rewrite G in T3. symmetry in T3. apply app_eq_nil in T3. destruct T3 as (T3 & _). rewrite T3 in T2. symmetry in T2. apply app_eq_nil in T2.
        destruct T2 as (T2 & _). rewrite T2 in T1. symmetry in T1. apply app_eq_nil in T1. now destruct T1. }
    destruct (Q Ee r Hr) as (o & Ho). destruct (different_find e w r (paFile a) sum name c S S40 Sf Hh) as [(k & Y)|Y]; [congruence|]. specialize (Sm r name Hr Y). rewrite (segmentFile_sum _ _ _ S40 Sf) in Sm. contradiction.
  Qed.
  Lemma push_different_unique e w a r sum name : isSegmentName (paFile a) -> In r (paRepos a) -> enList e (rdIdx r) = None -> sum40 sum -> segmentFile (paFile a) sum name ->
    onlyFile w r (paFile a) name -> sum <> sha1hex (paWal a) -> fst (push e w a) = w /\ exists k, snd (push e w a) = Err k \/ snd (push e w a) = UB.
  Proof.
    intros S Hr Hl S40 Sf Ho Hd. pose proof (onlyFile_matches _ _ _ _ _ S S40 Sf Ho) as M.
    assert (F : walSegmentFindOne e w r (paFile a) = Ok (Some name)). { unfold walSegmentFindOne. rewrite Hl. fold (names w r). fold (matches w r (paFile a)). now rewrite M. }
    unfold archivePushFile. destruct (match paRepos a with [] => true | _ => false end); [split; [reflexivity|exists EAssert; left; reflexivity]|].
    destruct (if paHeaderCheck a && walIsSegment (paFile a) then _ else _) as [[]|k|]; [|split; [reflexivity|exists k; left; reflexivity]|split; [reflexivity|exists EAssert; right; reflexivity]].
    rewrite (proj2 (walIsSegment_spec _) S). rewrite (findLoop_different e w (paFile a) _ (paModeCheck a) (paRepos a) r name Hr F).
    - split; [reflexivity|]. exists EArchiveDuplicate. now left.
    - now rewrite (segmentFile_sum _ _ _ S40 Sf).
  Qed.

  (** ** Pushing again *)
  Lemma findLoop_all_same e w seg sum mc l : (forall r, In r l -> exists f, walSegmentFindOne e w r seg = Ok (Some f) /\ firstn 40 (skipn (length seg + 1) f) = sum) ->
    forall errs warns, exists warns', pushFindLoop e w seg sum mc l false errs warns = Ok (map (fun _ => false) l, false, errs, warns').
  Proof.
    induction l as [|r l IH]; intros Hall errs warns; cbn [pushFindLoop map]; [eauto|]. destruct (Hall r) as (f & Ef & Es); [now left|]. rewrite Ef, Es, strEqb_refl.
    destruct (IH ltac:(intros; apply Hall; now right) errs (if mc then warns ++ [rdIdx r] else warns)) as (wn & E). rewrite E. cbn. eauto.
  Qed.
  Lemma push_same e w a : isSegmentName (paFile a) -> paRepos a <> [] -> paErrors a = [] -> paHeaderCheck a = false \/ paHeader a = Ok (paVersion a, paSystemId a) ->
    (forall r, In r (paRepos a) -> enList e (rdIdx r) = None /\ exists name, segmentFile (paFile a) (sha1hex (paWal a)) name /\ onlyFile w r (paFile a) name) ->
    exists warns, push e w a = (w, Ok warns).
  Proof.
    intros S Hne He Hh Hall. unfold archivePushFile. rewrite (proj2 (walIsSegment_spec _) S). destruct (paRepos a) as [|r0 l0] eqn:R; [congruence|]. rewrite <- R in *. clear R r0 l0.
    assert (Hc : (if paHeaderCheck a && true then let* (v, s) := paHeader a in if negb (v =? paVersion a) || negb (s =? paSystemId a) then Err EArchiveMismatch else Ok tt else Ok tt) = Ok tt).
    { destruct Hh as [->| ->]; [reflexivity|]. cbn. rewrite !Z.eqb_refl. now destruct (paHeaderCheck a). }
    rewrite Hc. destruct (findLoop_all_same e w (paFile a) (sha1hex (paWal a)) (paModeCheck a) (paRepos a)) with (errs := paErrors a) (warns := @nil nat) as (wn & E).
    - intros r Hr. destruct (Hall r Hr) as (Hl & name & Sf & Ho). exists name. split; [|apply segmentFile_sum; auto]. pose proof (onlyFile_matches _ _ _ _ _ S (Hsha _) Sf Ho) as M.
      unfold walSegmentFindOne. rewrite Hl. fold (names w r). fold (matches w r (paFile a)). now rewrite M.
    - rewrite E, He. eauto.
  Qed.
End Push.
