From Verif Require Import Base Str ConvertModel NumModel WalExpireModel SpoolModel SpoolSpec SpoolProof PushModel PushSpec PushProof PushProof2.
From Coq Require Import Permutation Sorted.
Open Scope Z_scope.

(** * The check of the repositories *)
Lemma checkLoop_set set : forall infos idx v s l errs v' s' l' errs', set || (0 <? idx)%nat = true ->
  pushCheckLoop set idx infos v s l errs = (v', s', l', errs') ->
  v' = v /\ s' = s /\
  (forall r, In r l' <-> In r l \/ exists k, nth_error infos k = Some (Ok (rdArchiveId r, v, s)) /\ rdIdx r = (idx + k)%nat) /\
  (forall j, In j (map fst errs') <-> In j (map fst errs) \/ exists k, (k < length infos)%nat /\ j = (idx + k)%nat /\ forall aid, nth_error infos k <> Some (Ok (aid, v, s))).
Proof.
  induction infos as [|i infos IH]; intros idx v s l errs v' s' l' errs' Hs H; cbn [pushCheckLoop] in H.
  - injection H as <- <- <- <-. split; [reflexivity|]. split; [reflexivity|]. split; [intros r|intros j]; (split; [now left|intros [H|(k & H)]; [exact H|]]).
    + destruct H as (H & _). now destruct k.
    + cbn in H. lia.
  - assert (Hs' : set || (0 <? idx + 1)%nat = true) by (rewrite (proj2 (Nat.ltb_lt 0 (idx + 1)) ltac:(lia)); apply orb_true_r).
    assert (Bad : forall k0, (forall aid, i <> Ok (aid, v, s)) -> pushCheckLoop set (idx + 1) infos v s l (errs ++ [(idx, k0)]) = (v', s', l', errs') ->
      v' = v /\ s' = s /\
      (forall r, In r l' <-> In r l \/ exists k, nth_error (i :: infos) k = Some (Ok (rdArchiveId r, v, s)) /\ rdIdx r = (idx + k)%nat) /\
      (forall j, In j (map fst errs') <-> In j (map fst errs) \/ exists k, (k < length (i :: infos))%nat /\ j = (idx + k)%nat /\ forall aid, nth_error (i :: infos) k <> Some (Ok (aid, v, s)))).
    { intros k0 Hi H'. destruct (IH _ _ _ _ _ _ _ _ _ Hs' H') as (-> & -> & A & B). split; [reflexivity|]. split; [reflexivity|]. split.
      - intros r. rewrite A. split; (intros [G|(k & G1 & G2)]; [now left|right]).
        + exists (S k). split; [exact G1|lia].
        + destruct k; [cbn in G1; injection G1 as G1; exfalso; eapply Hi; exact G1|]. exists k. split; [exact G1|lia].
      - intros j. rewrite B, map_app, in_app_iff. cbn. split.
        + intros [[G|[<-|[]]]|(k & G1 & G2 & G3)]; [now left| |].
          * right. exists 0%nat. split; [lia|]. split; [lia|]. intros aid [= G]. now apply (Hi aid).
          * right. exists (S k). split; [lia|]. split; [lia|]. exact G3.
        + intros [G|(k & G1 & G2 & G3)]; [auto|]. destruct k; [left; right; left; lia|]. right. exists k. split; [lia|]. split; [lia|]. exact G3. }
    destruct i as [[[aid v1] s1]|k0|]; [|apply (Bad k0); [discriminate|exact H]|apply (Bad EOther); [discriminate|exact H]].
    rewrite Hs in H. destruct (negb (v =? v1) || negb (s =? s1)) eqn:Q; cbn [andb] in H.
    + apply (Bad EArchiveMismatch); [|exact H]. intros aid' [= -> -> ->]. now rewrite !Z.eqb_refl in Q.
    + apply orb_false_iff in Q. destruct Q as (Q1 & Q2). apply negb_false_iff, Z.eqb_eq in Q1, Q2. subst v1 s1. destruct (IH _ _ _ _ _ _ _ _ _ Hs' H) as (-> & -> & A & B). split; [reflexivity|]. split; [reflexivity|]. split.
      * intros r. rewrite A, in_app_iff. cbn. split.
        -- intros [[G|[<-|[]]]|(k & G1 & G2)]; [now left| |].
           ++ right. exists 0%nat. split; [reflexivity|cbn; lia].
           ++ right. exists (S k). split; [exact G1|lia].
        -- intros [G|(k & G1 & G2)]; [auto|]. destruct k; [|right; exists k; split; [exact G1|lia]]. cbn in G1. injection G1 as ->. left. right. left. destruct r; cbn in *; f_equal; lia.
      * intros j. rewrite B. split; (intros [G|(k & G1 & G2 & G3)]; [now left|right]).
        -- exists (S k). split; [cbn; lia|]. split; [lia|]. exact G3.
        -- destruct k; [exfalso; now apply (G3 aid)|]. exists k. cbn in G1. split; [lia|]. split; [lia|]. exact G3.
Qed.

Lemma check_spec pg infos v s l errs : archivePushCheck pg infos = Ok (v, s, l, errs) ->
  l <> [] /\ (forall p, pg = Some p -> p = (v, s)) /\
  (pg = None -> forall aid v1 s1, nth_error infos 0 = Some (Ok (aid, v1, s1)) -> v = v1 /\ s = s1) /\
  (forall r, In r l <-> nth_error infos (rdIdx r) = Some (Ok (rdArchiveId r, v, s))) /\
  (forall j, In j (map fst errs) <-> (j < length infos)%nat /\ forall aid, nth_error infos j <> Some (Ok (aid, v, s))).
Proof.
  intros H. unfold archivePushCheck in H.
  assert (Shape : forall l0 e0 set v0 s0, set || (0 <? 0)%nat = true -> pushCheckLoop set 0 infos v0 s0 [] [] = (v, s, l0, e0) -> v = v0 /\ s = s0 /\
     (forall r, In r l0 <-> nth_error infos (rdIdx r) = Some (Ok (rdArchiveId r, v, s))) /\ (forall j, In j (map fst e0) <-> (j < length infos)%nat /\ forall aid, nth_error infos j <> Some (Ok (aid, v, s)))).
  { intros l0 e0 set v0 s0 Hs E. destruct (checkLoop_set _ _ _ _ _ _ _ _ _ _ _ Hs E) as (-> & -> & A & B). split; [reflexivity|]. split; [reflexivity|]. split.
    - intros r. rewrite A. cbn. split; [intros [[]|(k & G1 & ->)]; exact G1|intros G; right; eauto].
    - intros j. rewrite B. cbn. split; [intros [[]|(k & G1 & -> & G3)]; auto|intros (G1 & G2); right; exists j; auto]. }
  destruct pg as [[v0 s0]|].
  - destruct (pushCheckLoop true 0 infos v0 s0 [] []) as [[[v' s'] l'] errs'] eqn:E. destruct l' as [|r0 l0]; [discriminate|]. injection H as <- <- <- <-.
    destruct (Shape _ _ true _ _ eq_refl E) as (-> & -> & A & B). split; [discriminate|]. split; [now intros p [= <-]|]. split; [discriminate|]. auto.
  - destruct (pushCheckLoop false 0 infos 0 0 [] []) as [[[v' s'] l'] errs'] eqn:E. destruct l' as [|r0 l0] eqn:L; [discriminate|]. injection H as <- <- <- <-. rewrite <- L in *.
    split; [congruence|]. split; [discriminate|]. clear Shape L r0 l0. destruct infos as [|i infos].
    { cbn in E. injection E as <- <- <- <-. split; [discriminate|]. split; [intros r; split; [intros []|destruct (rdIdx r); discriminate]|intros j; split; [intros []|cbn; intros (G & _); lia]]. }
    cbn [pushCheckLoop] in E. destruct i as [[[aid v1] s1]|k0|]; cbn [andb orb] in E.
    + change (false || (0 <? 0)%nat) with false in E. cbn [andb] in E. destruct (checkLoop_set _ _ _ _ _ _ _ _ _ _ _ (eq_refl : false || (0 <? 0 + 1)%nat = true) E) as (-> & -> & A & B). split; [intros _ aid' v2 s2 [= _ -> ->]; auto|]. split.
      * intros r. rewrite A. cbn. split.
        -- intros [[<-|[]]|(k & G1 & G2)]; [reflexivity|]. rewrite G2. exact G1.
        -- intros G. destruct (rdIdx r) as [|k] eqn:R; cbn in G; [|right; exists k; split; [exact G|lia]]. injection G as ->. left. left. destruct r; cbn in *; congruence.
      * intros j. rewrite B. cbn. split.
        -- intros [[]|(k & G1 & -> & G3)]. cbn. split; [lia|exact G3].
        -- intros (G1 & G2). destruct j; [exfalso; now apply (G2 aid)|]. right. exists j. split; [lia|]. split; [lia|]. exact G2.
    + destruct (checkLoop_set _ _ _ _ _ _ _ _ _ _ _ (eq_refl : false || (0 <? 0 + 1)%nat = true) E) as (-> & -> & A & B). split; [intros _ aid' v2 s2 [=]|]. split.
      * intros r. rewrite A. cbn. split; [intros [[]|(k & G1 & G2)]; rewrite G2; exact G1|]. intros G. destruct (rdIdx r) as [|k] eqn:R; cbn in G; [discriminate|]. right. exists k. split; [exact G|lia].
      * intros j. rewrite B. cbn. split.
        -- intros [[<-|[]]|(k & G1 & -> & G3)]; cbn; (split; [lia|]); [intros aid [=]|exact G3].
        -- intros (G1 & G2). destruct j; [left; left; reflexivity|]. right. exists j. split; [lia|]. split; [lia|]. exact G2.
    + destruct (checkLoop_set _ _ _ _ _ _ _ _ _ _ _ (eq_refl : false || (0 <? 0 + 1)%nat = true) E) as (-> & -> & A & B). split; [intros _ aid' v2 s2 [=]|]. split.
      * intros r. rewrite A. cbn. split; [intros [[]|(k & G1 & G2)]; rewrite G2; exact G1|]. intros G. destruct (rdIdx r) as [|k] eqn:R; cbn in G; [discriminate|]. right. exists k. split; [exact G|lia].
      * intros j. rewrite B. cbn. split.
        -- intros [[<-|[]]|(k & G1 & -> & G3)]; cbn; (split; [lia|]); [intros aid [=]|exact G3].
        -- intros (G1 & G2). destruct j; [left; left; reflexivity|]. right. exists j. split; [lia|]. split; [lia|]. exact G2.
Qed.

Lemma check_all pg infos v s l : archivePushCheck pg infos = Ok (v, s, l, []) -> forall i, (i < length infos)%nat -> exists aid, In (mkRepoData i aid) l /\ nth_error infos i = Some (Ok (aid, v, s)).
Proof.
  intros H i Hi. destruct (check_spec _ _ _ _ _ _ H) as (_ & _ & _ & A & B). destruct (nth_error infos i) as [[[[aid v1] s1]|k|]|] eqn:E.
  - destruct (Z.eq_dec v1 v) as [->|N]; [destruct (Z.eq_dec s1 s) as [->|N]; [exists aid; split; [apply A; exact E|reflexivity]|]|]; exfalso; apply (proj2 (B i)); (split; [exact Hi|]); intros aid'; rewrite E; congruence.
  - exfalso. apply (proj2 (B i)). split; [exact Hi|]. intros aid'. now rewrite E.
  - exfalso. apply (proj2 (B i)). split; [exact Hi|]. intros aid'. now rewrite E.
  - apply nth_error_None in E. lia.
Qed.

(** * Directory names *)
Lemma removeAll_names l : forall d d' x, dirRemoveAll d l = Ok d' -> In x (map fst d') -> In x (map fst d).
Proof.
  induction l as [|n l IH]; intros d d' x H Hx; cbn in H; [injection H as <-; exact Hx|]. unfold dirRemoveStrict in H. destruct (dirExists d n); [|discriminate]. cbn [bind] in H.
  specialize (IH _ _ _ H Hx). apply dirRemove_names in IH. apply IH.
Qed.
Lemma process_names d names d' l x : pushProcessList d names = Ok (d', l) -> In x (map fst d') -> In x (map fst d).
Proof.
  unfold pushProcessList. destruct (dirRemoveAll d _) as [d1| |] eqn:E1; cbn [bind]; [|discriminate..]. destruct (dirRemoveAll d1 _) as [d2| |] eqn:E2; cbn [bind]; [|discriminate..]. intros [= <- <-] H.
  eapply removeAll_names; [exact E1|]. eapply removeAll_names; [exact E2|exact H].
Qed.
Lemma put_names d n c x : In x (map fst (dirPut d n c)) -> x = n \/ In x (map fst d).
Proof. cbn [dirPut map fst In]. intros [H|H]; [now left|right]. apply dirRemove_names in H. apply H. Qed.
Lemma errWrite_names d seg code m d' f : asyncErrorWrite d seg code m = Ok d' -> In (f ++ extOk) (map fst d') -> In (f ++ extOk) (map fst d).
Proof.
  unfold asyncErrorWrite. destruct (code =? 0); [discriminate|]. intros [= <-]. set (g := match seg with Some s => s | None => statusGlobal end). clearbody g. intros H. apply put_names in H. destruct H as [H|H]; [|exact H]. now apply ext_ne in H.
Qed.
Lemma okWrite_names d g w f : In (f ++ extOk) (map fst (asyncOkWrite d g w)) -> f = g \/ In (f ++ extOk) (map fst d).
Proof. intros H. apply put_names in H. destruct H as [H|H]; [left; now apply app_inv_tail in H|now right]. Qed.
Lemma okFold_names w l f : forall d, In (f ++ extOk) (map fst (fold_left (fun d f => asyncOkWrite d f w) l d)) -> In f l \/ In (f ++ extOk) (map fst d).
Proof.
  induction l as [|g l IH]; intros d H; cbn [fold_left] in H; [now right|]. destruct (IH _ H) as [G|G]; [left; now right|]. apply okWrite_names in G. destruct G as [->|G]; [left; now left|now right].
Qed.

Section Push.
  Variables (sha1hex : data -> str) (encrypt : nat -> data -> data) (pgWal : str -> data).
  Hypothesis Hsha : forall d, sum40 (sha1hex d).
  Notation push := (archivePushFile sha1hex encrypt).

  Lemma archived_preserved e w a w' r rd f sum : argsOk a -> push e w a = (w', r) -> archived w rd f sum -> archived w' rd f sum.
  Proof.
    intros X H (name & c & Hh & A & B). destruct (push_effect sha1hex encrypt Hsha e w a w' r X H) as (_ & P & _). unfold holds in Hh. destruct (P _ _ _ Hh) as [K|(S & K & K')].
    - exists name, c. auto.
    - cbn in K. exists name, (encrypt (rdIdx rd) (concat (paChunks a))). split; [|auto]. unfold holds. rewrite K. unfold destName in K'. destruct (walIsSegment (paFile a)) eqn:Q; [apply walIsSegment_spec in Q; contradiction|exact K'].
  Qed.
  Lemma push_ok_archived e w a w' warns : argsOk a -> push e w a = (w', Ok warns) -> forall r, In r (paRepos a) -> archived w' r (paFile a) (sha1hex (paWal a)).
  Proof.
    intros X H r Hr. destruct (push_ok sha1hex encrypt Hsha _ _ _ _ _ X H) as (_ & _ & A). destruct (A r Hr) as (name & c & Hh & [(_ & ->)|(S & _ & Sf)]).
    - exists (destName sha1hex a), c. split; [exact Hh|]. split; [now apply dest_segment|]. intros S. unfold destName. destruct (walIsSegment (paFile a)) eqn:Q; [apply walIsSegment_spec in Q; contradiction|reflexivity].
    - exists name, c. split; [exact Hh|]. split; [auto|contradiction].
  Qed.

  (** * Asynchronous push *)
  Definition checkOk (n : nat) (s : sys) : Prop := syJobs s <> [] -> exists pg infos, length infos = n /\ archivePushCheck (Some pg) infos = Ok (syCheck s).
  Definition done (n : nat) (w : repos) (f : str) : Prop := forall i, (i < n)%nat -> exists aid, archived w (mkRepoData i aid) f (sha1hex (pgWal f)).
  Definition okSound (n : nat) (s : sys) : Prop := forall f, In (f ++ extOk) (map fst (sySpool s)) -> In f (syDropped s) \/ done n (syRepos s) f.
  Definition inv (n : nat) (s : sys) : Prop := checkOk n s /\ okSound n s.

  Lemma global_inv n s r s' : globalError s r = Ok s' -> inv n s -> inv n s'.
  Proof.
    unfold globalError. destruct (asyncErrorWrite _ _ _ _) as [d| |] eqn:E; cbn [bind]; [|discriminate..]. intros [= <-] (C & O). split; [exact C|]. intros f Hf. apply O. eapply errWrite_names; eauto.
  Qed.
  Lemma step_inv n s s' : sysStep sha1hex encrypt pgWal n s s' -> inv n s -> inv n s'.
  Proof.
    intros H Hi. pose proof Hi as (C & O). destruct H as [r Hl H|e f a warning code message Hf Ha Hw Hx H| -> |r H|f ->].
    - unfold asyncBegin in H. destruct (pushProcessList (sySpool s) (riNames r)) as [[d l]| |] eqn:P; [|eapply global_inv; eauto..].
      assert (I1 : inv n (mkSys (syRepos s) d [] (syCheck s) (syDropped s))) by (split; [intros K; now contradiction K|]; intros f Hf; apply O; eapply process_names; eauto).
      destruct l as [|x l]; [eapply global_inv; eauto|]. remember (x :: l) as xl. clear Heqxl.
      destruct (match riQueueMax r with Some q => _ | None => _ end).
      + injection H as <-. split; [intros K; now contradiction K|]. intros f Hf. cbn in Hf. apply okFold_names in Hf. cbn. destruct Hf as [Hf|Hf]; [left; apply in_app_iff; auto|].
        destruct (proj2 I1 f Hf) as [K|K]; [left; apply in_app_iff; auto|now right].
      + destruct (pushBatch _ _ _) as [l'| |]; [|eapply global_inv; eauto..]. destruct (archivePushCheck _ _) as [i| |] eqn:Q; [|eapply global_inv; eauto..]. injection H as <-. split; [|exact (proj2 I1)]. intros _. exists (riPg r), (riInfos r). auto.
    - unfold asyncJob in H. destruct (push e (syRepos s) (withCheck a (syCheck s))) as [w' res] eqn:P.
      assert (X : argsOk (withCheck a (syCheck s))).
      { unfold argsOk, extOf. destruct (syCheck s) as [[[v sid] l] errs]. cbn [withCheck paExt]. apply existsb_exists in Hx. destruct Hx as (y & Hy & E). destruct (strEqb_spec (match paExt a with Some x => x | None => [] end) y) as [->|]; [|discriminate]. exact Hy. }
      assert (Keep : forall g, done n (syRepos s) g -> done n w' g) by (intros g Hg i Hlt; destruct (Hg i Hlt) as (aid & A); exists aid; eapply archived_preserved; eauto).
      assert (Cj : checkOk n (mkSys w' (sySpool s) (filter (fun x => negb (strEqb x f)) (syJobs s)) (syCheck s) (syDropped s))).
      { intros K. apply C. intros E. apply K. cbn. now rewrite E. }
      destruct res as [warns|k|].
      + injection H as <-. split; [exact Cj|]. intros g Hg. cbn [sySpool syDropped syRepos] in Hg |- *. apply okWrite_names in Hg. destruct Hg as [->|Hg]; [right|destruct (O g Hg) as [K|K]; [now left|right; now apply Keep]].
        destruct (C ltac:(intros K; rewrite K in Hf; exact Hf)) as (pg & infos & Hn & Q). destruct (syCheck s) as [[[v sid] l] errs] eqn:Sc.
        assert (Ee : errs = []) by (destruct (push_ok sha1hex encrypt Hsha _ _ _ _ _ X P) as (G & _); exact G). subst errs.
        intros i Hlt. destruct (check_all _ _ _ _ _ Q i) as (aid & Hin & _); [lia|]. exists aid. pose proof (push_ok_archived _ _ _ _ _ X P (mkRepoData i aid) Hin) as G. cbn [withCheck paFile paWal] in G. rewrite Ha, Hw in G. exact G.
      + destruct (asyncErrorWrite _ _ _ _) as [d| |] eqn:E; cbn [bind] in H; [|discriminate..]. injection H as <-. split; [exact Cj|]. intros g Hg. cbn [sySpool syDropped syRepos] in Hg |- *. apply (errWrite_names _ _ _ _ _ _ E) in Hg. destruct (O g Hg) as [K|K]; [now left|right; now apply Keep].
      + destruct (asyncErrorWrite _ _ _ _) as [d| |] eqn:E; cbn [bind] in H; [|discriminate..]. injection H as <-. split; [exact Cj|]. intros g Hg. cbn [sySpool syDropped syRepos] in Hg |- *. apply (errWrite_names _ _ _ _ _ _ E) in Hg. destruct (O g Hg) as [K|K]; [now left|right; now apply Keep].
    - split; [intros K; now contradiction K|exact O].
    - eapply global_inv; eauto.
    - split; [exact C|]. intros g Hg. apply O. cbn [setSpool sySpool] in Hg. unfold asyncErrorClear in Hg. apply dirRemove_names in Hg. destruct Hg as (Hg & _). apply dirRemove_names in Hg. apply Hg.
  Qed.
  Lemma reach_inv n s0 s : inv n s0 -> sysReach sha1hex encrypt pgWal n s0 s -> inv n s.
  Proof. intros Hi. induction 1 as [|s s' _ IH St]; [exact Hi|]. eapply step_inv; eauto. Qed.
  Lemma dirGet_names d n c : dirGet d n = Some c -> In n (map fst d).
  Proof. induction d as [|[m e] r IH]; cbn; [discriminate|]. destruct (strEqb_spec m n); [now left|]. intros H. right. now apply IH. Qed.
  Lemma async_sound n s0 s f t wo x : syJobs s0 = [] -> (forall g, ~ In (g ++ extOk) (map fst (sySpool s0))) -> sysReach sha1hex encrypt pgWal n s0 s ->
    asyncStatus (sySpool s) f t wo = Ok (StTrue x) -> In f (syDropped s) \/ done n (syRepos s) f.
  Proof.
    intros J0 S0 R H. apply status_true_ok in H. destruct H as (c & H). apply dirGet_names in H.
    assert (I : inv n s) by (eapply reach_inv; [|exact R]; split; [intros K; now rewrite J0 in K|]; intros g Hg; now apply S0 in Hg). now apply (proj2 I).
  Qed.
End Push.
