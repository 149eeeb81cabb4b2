(** Proofs for archive-get: the queue, a single file, the asynchronous process and the loop. *)
From Verif Require Import Base Str ConvertModel NumModel SpoolModel SpoolSpec SpoolProof PushModel PushSpec PushProof LsnModel LsnSpec LsnProof GetModel GetSpec GetProof.
From Coq Require Import Permutation Sorted.
Open Scope Z_scope.

(** * The queue *)

Lemma queue_exact spool seg (found : bool) queueSize size tl b : isDir spool -> goodTimeline tl -> goodSize size -> 0 <= b -> segmentIs tl size b seg ->
  b + (queueCount queueSize size + 1) * size < 2 ^ 64 ->
  exists spool' need, queueNeed spool seg found queueSize size = Ok (spool', need) /\ isDir spool' /\ StronglySorted sle need /\
    (forall x, In x need <-> oneOf tl size (if found then b + size else b) (queueCount queueSize size) x /\ ~ In x (map fst spool)) /\
    forall f, In f spool' <-> In f spool /\ (oneOf tl size (if found then b + size else b) (queueCount queueSize size) (fst f) \/
                                            exists x, fst f = x ++ [46;111;107] /\ In x (map fst spool)).
Proof.
  intros HD Ht Hs Hb Hseg Lim. pose proof Hs as ((Hs2 & _) & _). set (n := queueCount queueSize size) in *. assert (Hn : 2 <= n) by (unfold n, queueCount; lia).
  set (b1 := if found then b + size else b). assert (Hb1 : 0 <= b1) by (unfold b1; destruct found; lia).
  assert (exists first, (if found then walSegmentNext seg size else Ok seg) = Ok first /\ segmentIs tl size b1 first) as (first & EF & HF).
  { unfold b1. destruct found; [|eauto]. apply (next_exact tl size b seg); auto. change two64 with (2 ^ 64). nia. }
  assert (ET : (if (queueSize / size) mod two32 <? 2 then 2 else (queueSize / size) mod two32) = n).
  { unfold n, queueCount. change two32 with (2 ^ 32). destruct (Z.ltb_spec ((queueSize / size) mod 2 ^ 32) 2); lia. }
  destruct (walRange_exact tl size (Z.to_nat (n - 1)) b1 first Ht Hs Hb1) as (range & ER & LR & RR); [change two64 with (2 ^ 64); rewrite Z2Nat.id by lia; unfold b1; destruct found; nia|exact HF|].
  assert (IR : forall x, In x range <-> oneOf tl size b1 n x).
  { intros x. split.
    - intros H. apply In_nth_error in H. destruct H as (i & E). assert (i < length range)%nat by (apply nth_error_Some; congruence). destruct (RR i) as (y & E2 & HY); [lia|]. assert (y = x) by congruence. subst y. exists (Z.of_nat i). split; [lia|exact HY].
    - intros (i & Hi & HI). destruct (RR (Z.to_nat i)) as (y & E2 & HY); [lia|]. rewrite Z2Nat.id in HY by lia. rewrite (segmentIs_unique _ _ _ _ _ HI HY). now apply (nth_error_In _ (Z.to_nat i)). }
  unfold queueNeed. rewrite EF. cbn [bind]. cbv zeta. rewrite ET. replace (Z.to_nat n) with (S (Z.to_nat (n - 1))) by lia. rewrite ER. cbn [bind].
  set (ideal := strLstSortAsc range). set (actual := strLstSortAsc (dirNames spool)).
  assert (II : forall x, In x ideal <-> oneOf tl size b1 n x) by (intros x; unfold ideal; rewrite strLstSortAsc_in; apply IR).
  assert (IA : forall x, In x actual <-> In x (map fst spool)) by (intros x; unfold actual; apply strLstSortAsc_in).
  set (remove := filter _ actual).
  assert (IRm : forall x, In x remove <-> In x (map fst spool) /\ ~ oneOf tl size b1 n x /\ ~ exists y, x = y ++ [46;111;107] /\ In y (map fst spool)).
  { intros x. unfold remove. rewrite filter_In, IA, andb_true_iff, negb_true_iff, orb_true_iff, !negb_true_iff, <- !not_true_iff_false, !strLstExists_in, II, IA. change (firstn (length x - length extOk) x) with (stripExt extOk x).
    split.
    - intros (H1 & H2 & H3). split; [exact H1|]. split; [exact H2|]. intros (y & -> & Hy). destruct H3 as [H3|H3]; [apply H3; apply (endsWith_app y extOk)|]. apply H3. change [46;111;107] with extOk. now rewrite stripExt_app.
    - intros (H1 & H2 & H3). split; [exact H1|]. split; [exact H2|]. destruct (strEndsWith x extOk) eqn:EX; [right|left; discriminate]. intros H. apply H3. exists (stripExt extOk x). split; [now apply endsWith_ex|exact H]. }
  destruct (dirRemoveAll_ok spool remove HD) as (d' & E & HD' & ID).
  { apply NoDup_filter', NoDup_sort, HD. }
  { intros x Hx. apply IRm in Hx. tauto. }
  rewrite E. cbn [bind]. eexists. eexists. split; [reflexivity|]. split; [exact HD'|]. split; [apply StronglySorted_filter, strLstSortAsc_sorted|]. split.
  - intros x. rewrite filter_In, negb_true_iff, <- not_true_iff_false, strLstExists_in, strLstSortAsc_in, filter_In, strLstExists_in, II, IA. fold b1. tauto.
  - intros f. rewrite ID, IRm. fold b1. split.
    + intros (H1 & H2). split; [exact H1|]. assert (In (fst f) (map fst spool)) by now apply in_map.
      destruct (strLstExists_spec ideal (fst f)) as [H3|H3]; rewrite II in H3; [auto|right].
      destruct (strEndsWith (fst f) extOk) eqn:EX.
      * destruct (strLstExists_spec (map fst spool) (stripExt extOk (fst f))) as [H4|H4]; [exists (stripExt extOk (fst f)); split; [now apply endsWith_ex|exact H4]|].
        exfalso. apply H2. split; [assumption|]. split; [exact H3|]. intros (y & E1 & E2). apply H4. rewrite E1. change [46;111;107] with extOk. now rewrite stripExt_app.
      * exfalso. apply H2. split; [assumption|]. split; [exact H3|]. intros (y & E1 & _). rewrite E1 in EX. change [46;111;107] with extOk in EX. rewrite endsWith_app in EX. discriminate.
    + intros (H1 & H2). split; [exact H1|]. tauto.
Qed.

(** * A single file *)
Lemma cache_serves v s only infos : (forall h, In h infos -> exists p, riPaths h = Ok p) -> forall r a,
  (exists c, In c (fst (cacheRepos v s only 0 infos)) /\ crIdx c = r /\ In a (crArchives c)) <-> serves v s only infos r a.
Proof.
  intros HP r a. split.
  - intros (c & Hc & <- & Ha). apply cacheRepos_in in Hc. destruct Hc as (i & h & E & Ei & HO & _ & l & EL & EA). cbn in Ei, HO. rewrite Ei. split; [exact HO|].
    destruct (HP h (nth_error_In _ _ E)) as (p & EP). apply (archiveIds_in _ _ _ _ _ _ EA) in Ha. destruct Ha as (j & Ej & Hj). exists h, l, p, j. repeat (split; [assumption|]). destruct Hj as [(_ & ->)|(p' & E' & H')]; [now left|right]. congruence.
  - intros (HO & h & l & p & i & E & EL & EP & Ei & Hi).
    assert (exists ids, archiveIds v s true l (riPaths h) = Ok ids) as (ids & EA).
    { rewrite EP. clear. generalize true. induction l as [|((x, y), z) l IH]; intros first; cbn [archiveIds]; [eauto|]. destruct (IH false) as (ids & E). rewrite E. destruct ((z =? s) && (y =? v)); [|eauto]. destruct first; cbn [bind]; eauto. }
    assert (HA : In a ids). { apply (archiveIds_in _ _ _ _ _ _ EA). exists i. split; [exact Ei|]. destruct Hi as [->|Hi]; [auto|]. right. eauto. }
    exists (mkCRepo r ids). split; [|auto]. apply cacheRepos_in. exists r, h. cbn. split; [exact E|]. split; [reflexivity|]. split; [exact HO|]. split; [intros ->; destruct HA|]. eauto.
Qed.

Lemma single_spec w listErr read version systemId invalid label only infos f k out :
  seg24 f -> (k <= 22)%nat -> (forall h, In h infos -> exists p, riPaths h = Ok p) ->
  (forall r a, serves version systemId only infos r a -> length a = k) ->
  (forall r a, serves version systemId only infos r a -> listErr f r a = None) ->
  invalid && negb label = false ->
  getSingle w listErr read (version, systemId, invalid) label only infos f = out ->
  match out with
  | Ok (Some d) => exists r a name sum, serves version systemId only infos r a /\ has w r a f name sum /\ read (mkGFile (a ++ 47 :: firstn 16 f ++ 47 :: name) r a name) = Ok d
  | Ok None => (exists r a, serves version systemId only infos r a) /\ forall r a name sum, serves version systemId only infos r a -> ~ has w r a f name sum
  | Err ERepoInvalid => forall r a, ~ serves version systemId only infos r a
  | Err EArchiveDuplicate => exists r1 a1 n1 s1 r2 a2 n2 s2, serves version systemId only infos r1 a1 /\ serves version systemId only infos r2 a2 /\ has w r1 a1 f n1 s1 /\ has w r2 a2 f n2 s2 /\ s1 <> s2
  | Err e => e = EFileRead /\ forall r a name sum d, serves version systemId only infos r a -> has w r a f name sum -> read (mkGFile (a ++ 47 :: firstn 16 f ++ 47 :: name) r a name) <> Ok d
  | UB => False
  end.
Proof.
  intros Hf Hk HP HL HE HI <-. pose proof (cache_serves version systemId only infos HP) as CS. unfold getSingle, getCheck. rewrite HI.
  destruct (cacheRepos version systemId only 0 infos) as (cr, warns) eqn:EC. cbn [fst] in CS.
  assert (HC : forall c, In c cr -> crArchives c <> []). { intros c Hc. pose proof (proj1 (cacheRepos_in version systemId only infos 0 c)) as X. rewrite EC in X. destruct (X Hc) as (_ & _ & _ & _ & _ & N & _). exact N. }
  destruct cr as [|c0 cr']. { cbn. intros r a HS. apply CS in HS. destruct HS as (c & [] & _). }
  set (cr := c0 :: cr') in *. assert (Hlen : idLength cr k) by (intros c a Hc Ha; apply (HL (crIdx c)), CS; eauto).
  assert (HO : forall r a n s, offers w cr f r a n s <-> serves version systemId only infos r a /\ has w r a f n s).
  { intros r a n s. unfold offers, has. rewrite <- CS. tauto. }
  pose proof (find_sound w listErr cr k Hlen Hk f true _ Hf eq_refl) as S1. pose proof (find_complete w listErr cr k Hlen Hk f true Hf ltac:(discriminate)) as S2.
  assert (S2' := S2 ltac:(intros c a Hc Ha; apply HE, CS; eauto)). clear S2. cbn [length Nat.eqb findAll].
  destruct (getFind w listErr f true cr) as [e| |l]; cbn [bind ckError ckMap mapSort].
  - subst e. destruct S1 as (r1 & a1 & n1 & s1 & r2 & a2 & n2 & s2 & O1 & O2 & N). apply HO in O1. apply HO in O2. exists r1, a1, n1, s1, r2, a2, n2, s2. repeat split; try tauto; try apply O1; try apply O2. congruence.
  - split; [|intros r a n s H1 H2; apply (S2' r a n s), HO; auto]. destruct (crArchives c0) as [|a l] eqn:EA; [destruct (HC c0 (or_introl eq_refl) EA)|]. exists (crIdx c0), a. apply CS. exists c0. split; [now left|]. split; [reflexivity|]. rewrite EA. now left.
  - change (mapSort [(f, l)]) with [(f, l)]. cbn [bind].
    destruct S2' as (All & _). destruct S1 as (_ & Snd). pose proof (getFile_spec read l 0) as G. destruct (getFile read 0 l) as [(i, d)|e|]; [|destruct G as (-> & G)|exact G].
    + destruct G as (j & g & _ & Ej & R & _). pose proof (nth_error_In _ _ Ej) as Hg. destruct (Snd g Hg) as (E & s & O). apply HO in O. exists (gfRepo g), (gfArchive g), (gfName g), s. split; [tauto|]. split; [tauto|]. rewrite <- E. exact R.
    + cbn. split; [reflexivity|]. intros r a n s d H1 H2. apply G. apply (All r a n s), HO. auto.
Qed.

(** * The asynchronous process *)
Lemma touches_sep q q' x : length q = 24%nat -> length q' = 24%nat -> touches q x -> touches q' x -> q = q'.
Proof.
  intros L L' H H'. assert (LX : forall (a b : str), length a = length b -> a = b \/ a <> b) by (intros; destruct (str_dec a b); auto).
  unfold touches in *. destruct H as [->|[->| ->]]; destruct H' as [E|[E|E]]; try exact E; try (apply (f_equal (@length Z)) in E; rewrite ?app_length, L, ?L' in E; cbn in E; lia); now apply app_inv_tail in E.
Qed.
Lemma touches_global q : length q = 24%nat -> ~ touches q (statusGlobal ++ extError).
Proof. intros L [E|[E|E]]; apply (f_equal (@length Z)) in E; rewrite ?app_length, L in E; cbn in E; lia. Qed.
Lemma self_ext (q e : str) : e <> [] -> q <> q ++ e.
Proof. intros N E. apply (f_equal (@length Z)) in E. rewrite app_length in E. destruct e; [congruence|]. cbn in E. lia. Qed.

Section AsyncProof.
  Variable job : str -> list gfile -> (data * list str) + (Z * str).
  Variable warns : str -> list str.
  Notation step := (jobStep job warns).
  (** What job [m] leaves *)
  Definition leaves (d : dir) (m : str * list gfile) : Prop :=
    match job (fst m) (snd m) with
    | inl (content, _) => dirGet d (fst m) = Some content
    | inr (code, msg) => exists t, dirGet d (fst m ++ extError) = Some (cvtIntToZ code ++ 10 :: msg ++ t)
    end.
  Lemma step_ok d m : (forall code msg, job (fst m) (snd m) = inr (code, msg) -> code <> 0) -> exists d', step (Ok d) m = Ok d' /\ leaves d' m /\
    (forall x, ~ touches (fst m) x -> dirGet d' x = dirGet d x) /\ (forall c fw, job (fst m) (snd m) = inl (c, fw) -> dirGet d' (fst m ++ extError) = dirGet d (fst m ++ extError)) /\
    (forall code msg, job (fst m) (snd m) = inr (code, msg) -> dirGet d' (fst m) = dirGet d (fst m)).
  Proof.
    intros HC. unfold jobStep, leaves. cbn [bind]. destruct (job (fst m) (snd m)) as [(content, fw)|(code, msg)].
    - set (wn := joinLines (warns (fst m)) ++ _). set (d1 := match wn with [] => d | _ => asyncOkWrite d (fst m) (Some wn) end). exists (dirPut d1 (fst m) content). split; [reflexivity|]. split; [rewrite dirGet_put; destruct (strEqb_spec (fst m) (fst m)) as [_|N]; [reflexivity|elim (N eq_refl)]|].
      assert (D : forall x, x <> fst m ++ extOk -> dirGet d1 x = dirGet d x).
      { intros x N. unfold d1. destruct wn as [|c0 wn']; [reflexivity|]. unfold asyncOkWrite. rewrite dirGet_put. destruct (strEqb_spec (fst m ++ extOk) x); congruence. }
      split; [|split; [|discriminate]].
      + intros x N. rewrite dirGet_put. destruct (strEqb_spec (fst m) x) as [E|_]; [elim N; left; congruence|]. apply D. intros ->. apply N. right. now left.
      + intros _ _ _. rewrite dirGet_put. destruct (strEqb_spec (fst m) (fst m ++ extError)) as [E|_]; [elim (self_ext (fst m) extError); [discriminate|exact E]|]. apply D. intros E. symmetry in E. exact (ext_ne _ _ E).
    - unfold asyncErrorWrite. destruct (Z.eqb_spec code 0) as [E|_]; [elim (HC _ _ eq_refl E)|]. eexists. split; [reflexivity|]. split; [eexists; rewrite dirGet_put; destruct (strEqb_spec (fst m ++ extError) (fst m ++ extError)) as [_|N]; [reflexivity|elim (N eq_refl)]|].
      split; [|split; [discriminate|]].
      + intros x N. rewrite dirGet_put. destruct (strEqb_spec (fst m ++ extError) x) as [E|_]; [elim N; right; right; symmetry; exact E|reflexivity].
      + intros _ _ _. rewrite dirGet_put. destruct (strEqb_spec (fst m ++ extError) (fst m)) as [E|_]; [|reflexivity]. symmetry in E. elim (self_ext (fst m) extError); [discriminate|exact E].
  Qed.
  Lemma leaves_ext d d' m : (forall x, touches (fst m) x -> dirGet d' x = dirGet d x) -> leaves d m -> leaves d' m.
  Proof. intros H. unfold leaves. destruct (job (fst m) (snd m)) as [(c, fw)|(code, msg)]; rewrite !H; auto; unfold touches; auto. Qed.
  Lemma fold_ok order : NoDup (map fst order) -> (forall m, In m order -> length (fst m) = 24%nat) -> (forall m code msg, In m order -> job (fst m) (snd m) = inr (code, msg) -> code <> 0) ->
    forall d, exists d', fold_left step order (Ok d) = Ok d' /\ (forall m, In m order -> leaves d' m) /\
      (forall m c fw, In m order -> job (fst m) (snd m) = inl (c, fw) -> dirGet d' (fst m ++ extError) = dirGet d (fst m ++ extError)) /\
      (forall m code msg, In m order -> job (fst m) (snd m) = inr (code, msg) -> dirGet d' (fst m) = dirGet d (fst m)) /\
      forall x, (forall m, In m order -> ~ touches (fst m) x) -> dirGet d' x = dirGet d x.
  Proof.
    induction order as [|m order IH]; intros ND HL HC d; cbn [fold_left]; [exists d; repeat split; auto; intros; contradiction|].
    inversion ND as [|? ? NI ND']; subst. destruct (step_ok d m) as (d1 & -> & L1 & F1 & G1 & K1); [intros code msg; apply (HC m); now left|].
    destruct (IH ND' (fun x H => HL x (or_intror H)) (fun x code msg H => HC x code msg (or_intror H)) d1) as (d2 & -> & L2 & G2 & K2 & F2).
    assert (Sep : forall x, touches (fst m) x -> forall m', In m' order -> ~ touches (fst m') x).
    { intros x H m' Hm H'. apply NI. rewrite (touches_sep (fst m) (fst m') x); [now apply in_map|apply HL; now left|apply HL; now right|exact H|exact H']. }
    assert (Sep' : forall x m', In m' order -> touches (fst m') x -> ~ touches (fst m) x) by (intros x m' Hm H' H; exact (Sep x H m' Hm H')).
    exists d2. split; [reflexivity|]. split; [|split; [|split]].
    - intros m' [<-|Hm]; [|now apply L2]. apply (leaves_ext d1); [|exact L1]. intros x H. apply F2. now apply Sep.
    - intros m' c fw [<-|Hm] J; [rewrite F2 by (apply Sep; right; now right); eauto|]. rewrite (G2 m' c fw Hm J). apply F1. apply (Sep' _ m' Hm). right. now right.
    - intros m' code msg [<-|Hm] J; [rewrite F2 by (apply Sep; now left); eauto|]. rewrite (K2 m' code msg Hm J). apply F1. apply (Sep' _ m' Hm). now left.
    - intros x H. rewrite F2 by (intros; apply H; now right). apply F1. apply H. now left.
  Qed.
End AsyncProof.

Lemma async_spec job codeOf message c order warns warnList gc gm (reqs : list str) d :
  NoDup reqs -> Forall (fun q => length q = 24%nat) reqs -> Permutation order (ckMap c) -> Permutation (map fst (ckMap c)) (firstn (length (ckMap c)) reqs) ->
  (forall k, codeOf k <> 0) -> (forall q l code msg, In (q, l) (ckMap c) -> job q l = inr (code, msg) -> code <> 0) ->
  (forall k q, ckError c = Some (k, Some q) -> nth_error reqs (length (ckMap c)) = Some q) ->
  exists d', getAsync job codeOf message (Ok c) order warns warnList gc gm reqs d = Ok d' /\
    (forall q l content fw, In (q, l) (ckMap c) -> job q l = inl (content, fw) -> dirGet d' q = Some content /\ dirGet d' (q ++ extError) = dirGet d (q ++ extError)) /\
    (forall q l code msg, In (q, l) (ckMap c) -> job q l = inr (code, msg) -> dirGet d' q = dirGet d q /\ exists t, dirGet d' (q ++ extError) = Some (cvtIntToZ code ++ 10 :: msg ++ t)) /\
    (forall q, ckError c = None -> nth_error reqs (length (ckMap c)) = Some q -> dirGet d' q = dirGet d q /\ dirGet d' (q ++ extOk) <> None) /\
    (forall k q, ckError c = Some (k, q) -> exists t, dirGet d' (match q with Some q => q | None => statusGlobal end ++ extError) = Some (cvtIntToZ (codeOf k) ++ 10 :: message ++ t)) /\
    forall x, dirGet d' x <> dirGet d x -> x = statusGlobal ++ extError \/ exists q, In q (firstn (S (length (ckMap c))) reqs) /\ touches q x.
Proof.
  intros ND FL PO PM HC HJ HE. rewrite Forall_forall in FL. set (n := length (ckMap c)) in *.
  assert (IM : forall m, In m order -> In (fst m) (firstn n reqs)). { intros m Hm. apply (Permutation_in _ PM). apply in_map. now apply (Permutation_in _ PO). }
  assert (IM' : forall m, In m order -> length (fst m) = 24%nat) by (intros m Hm; apply FL; apply (In_firstn _ n); now apply IM).
  assert (NDO : NoDup (map fst order)).
  { apply (Permutation_NoDup (l := firstn n reqs)); [symmetry; rewrite <- PM; now apply Permutation_map|]. rewrite <- (firstn_skipn n reqs) in ND. clear - ND. induction (firstn n reqs) as [|x l IH]; [constructor|]. inversion ND as [|? ? NI N']; subst. constructor; [|now apply IH]. intros H. apply NI. apply in_app_iff. now left. }
  assert (HJ' : forall m code msg, In m order -> job (fst m) (snd m) = inr (code, msg) -> code <> 0) by (intros (q, l) code msg Hm; apply (HJ q l); now apply (Permutation_in _ PO)).
  destruct (fold_ok job warns order NDO IM' HJ' d) as (d1 & E1 & L1 & G1 & K1 & F1). unfold getAsync. rewrite E1. cbn [bind]. fold n.
  assert (Next : forall q x m, nth_error reqs n = Some q -> In m order -> touches q x -> ~ touches (fst m) x).
  { intros q x m Eq Hm H H'. assert (q = fst m) by (apply (touches_sep q (fst m) x); auto; apply FL; now apply nth_error_In in Eq). subst q. specialize (IM m Hm). apply In_nth_error in IM. destruct IM as (i & Ei).
    assert (Li : (i < length (firstn n reqs))%nat) by (apply (proj1 (nth_error_Some (firstn n reqs) i)); intros X; pose proof (eq_trans (eq_sym Ei) X); discriminate). rewrite firstn_length in Li. rewrite <- (firstn_skipn n reqs) in ND, Eq. assert (Lr : (n < length reqs)%nat) by (apply nth_error_Some; rewrite <- (firstn_skipn n reqs), Eq; discriminate).
    assert (i = n); [|lia]. apply (proj1 (NoDup_nth_error _) ND); [rewrite (firstn_skipn n reqs); lia|]. rewrite Eq, nth_error_app1, Ei; [reflexivity|rewrite firstn_length; lia]. }
  assert (InS : forall q, nth_error reqs n = Some q -> In q (firstn (S n) reqs)).
  { clear. revert reqs. induction n as [|n IH]; intros [|x reqs] q H; cbn in *; try discriminate; [injection H as ->; now left|]. right. now apply IH. }
  assert (InF : forall q, In q (firstn n reqs) -> In q (firstn (S n) reqs)).
  { clear. revert reqs. induction n as [|n IH]; intros [|x reqs] q H; cbn in *; try tauto. destruct H as [->|H]; [now left|]. right. now apply IH. }
  assert (Frame : forall d2 y, (forall m, In m order -> ~ touches (fst m) y) -> (y = statusGlobal ++ extError \/ exists q, nth_error reqs n = Some q /\ touches q y) -> (forall x, x <> y -> dirGet d2 x = dirGet d1 x) ->
    (forall q l content fw, In (q, l) (ckMap c) -> job q l = inl (content, fw) -> dirGet d2 q = Some content /\ dirGet d2 (q ++ extError) = dirGet d (q ++ extError)) /\
    (forall q l code msg, In (q, l) (ckMap c) -> job q l = inr (code, msg) -> dirGet d2 q = dirGet d q /\ exists t, dirGet d2 (q ++ extError) = Some (cvtIntToZ code ++ 10 :: msg ++ t)) /\
    forall x, dirGet d2 x <> dirGet d x -> x = statusGlobal ++ extError \/ exists q, In q (firstn (S n) reqs) /\ touches q x).
  { intros d2 y Sy Hy Hx.
    assert (NT : forall q l x, In (q, l) (ckMap c) -> touches q x -> dirGet d2 x = dirGet d1 x). { intros q l x Hq Ht. apply Hx. intros ->. apply (Sy (q, l)); [now apply (Permutation_in _ (Permutation_sym PO))|exact Ht]. }
    split; [|split].
    - intros q l content fw Hq J. pose proof (Permutation_in _ (Permutation_sym PO) Hq) as Hq'. rewrite !(NT q l) by (auto; unfold touches; auto). specialize (L1 _ Hq'). unfold leaves in L1. cbn in L1. rewrite J in L1. split; [exact L1|]. apply (G1 (q, l) content fw); auto.
    - intros q l code msg Hq J. pose proof (Permutation_in _ (Permutation_sym PO) Hq) as Hq'. rewrite !(NT q l) by (auto; unfold touches; auto). specialize (L1 _ Hq'). unfold leaves in L1. cbn in L1. rewrite J in L1. split; [apply (K1 (q, l) code msg); auto|exact L1].
    - intros x Nx. destruct (str_dec x y) as [->|Ny]; [destruct Hy as [Hy|(q & H1 & H2)]; [now left|right; exists q; auto]|]. rewrite (Hx x Ny) in Nx. right.
      destruct (existsb (fun m => strEqb x (fst m) || strEqb x (fst m ++ extOk) || strEqb x (fst m ++ extError)) order) eqn:EX.
      + apply existsb_exists in EX. destruct EX as (m & Hm & H). exists (fst m). split; [apply InF, IM, Hm|]. rewrite !orb_true_iff, !strEqb_eq in H. unfold touches. tauto.
      + exfalso. apply Nx. apply F1. intros m Hm Ht. apply not_true_iff_false in EX. apply EX. apply existsb_exists. exists m. split; [exact Hm|]. rewrite !orb_true_iff, !strEqb_eq. unfold touches in Ht. tauto. }
  assert (Id : forall x, dirGet d1 x = dirGet d1 x) by reflexivity.
  destruct (ckError c) as [(k, file)|] eqn:EE.
  - unfold asyncErrorWrite. destruct (Z.eqb_spec (codeOf k) 0) as [E|_]; [elim (HC k E)|]. set (y := match file with Some s => s | None => statusGlobal end ++ extError). eexists. split; [reflexivity|].
    destruct (Frame (dirPut d1 y (cvtIntToZ (codeOf k) ++ 10 :: message ++ match warnList with [] => [] | _ => 10 :: joinLines warnList end)) y) as (A & B & C).
    + intros m Hm. unfold y. destruct file as [q|]; [|apply touches_global; now apply IM']. apply (Next q); auto; [now apply (HE k)|]. right. now right.
    + unfold y. destruct file as [q|]; [right|now left]. exists q. split; [now apply (HE k)|]. right. now right.
    + intros x N. rewrite dirGet_put. destruct (strEqb_spec y x); congruence.
    + split; [exact A|]. split; [exact B|]. split; [discriminate|]. split; [|exact C]. intros k' q E. injection E as <- <-. eexists. rewrite dirGet_put. fold y. destruct (strEqb_spec y y) as [_|N]; [reflexivity|elim (N eq_refl)].
  - destruct (nth_error reqs n) as [q|] eqn:EN.
    + eexists. split; [reflexivity|]. unfold asyncOkWrite. set (v := match (match warnList with [] => None | _ => Some (joinLines warnList) end) with Some w => 48 :: 10 :: w | None => [] end).
      destruct (Frame (dirPut d1 (q ++ extOk) v) (q ++ extOk)) as (A & B & C).
      * intros m Hm. apply (Next q); auto. right. now left.
      * right. exists q. split; [reflexivity|]. right. now left.
      * intros x N. rewrite dirGet_put. destruct (strEqb_spec (q ++ extOk) x); congruence.
      * split; [exact A|]. split; [exact B|]. split; [|split; [discriminate|exact C]]. intros q' _ E. injection E as <-. rewrite !dirGet_put. destruct (strEqb_spec (q ++ extOk) (q ++ extOk)) as [_|N]; [|elim (N eq_refl)]. split; [|discriminate].
        destruct (strEqb_spec (q ++ extOk) q) as [E|_]; [symmetry in E; elim (self_ext q extOk); [discriminate|exact E]|]. apply F1. intros m Hm. apply (Next q); auto. now left.
    + exists d1. split; [reflexivity|]. destruct (Frame d1 (statusGlobal ++ extError)) as (A & B & C); [intros m Hm; apply touches_global; now apply IM'|now left|reflexivity|]. split; [exact A|]. split; [exact B|]. split; [discriminate|]. split; [discriminate|exact C].
Qed.

(** * The loop *)
Lemma less_refl d : less d d. Proof. now intros f c H. Qed.
Lemma less_trans a b c : less a b -> less b c -> less a c. Proof. intros H1 H2 f x H. auto. Qed.
Lemma less_remove d n : less (dirRemove d n) d.
Proof. intros f c. rewrite dirGet_remove. destruct (strEqb n f); [discriminate|auto]. Qed.
Lemma less_removeAll l : forall d d', dirRemoveAll d l = Ok d' -> less d' d.
Proof.
  induction l as [|n l IH]; intros d d' H; cbn in H; [injection H as <-; apply less_refl|]. unfold dirRemoveStrict in H. destruct (dirExists d n); [|discriminate]. cbn in H. apply (less_trans _ (dirRemove d n)); [now apply IH|apply less_remove].
Qed.
Lemma less_queue spool seg found q size d need : queueNeed spool seg found q size = Ok (d, need) -> less d spool.
Proof.
  unfold queueNeed. destruct (if found then _ else _) as [first| |]; try discriminate. cbn [bind]. destruct (walSegmentRange _ _ _) as [range| |]; try discriminate. cbn [bind]. destruct (dirRemoveAll _ _) as [d'| |] eqn:E; try discriminate. cbn [bind]. intros H. injection H as <- _. now apply (less_removeAll _ _ _ E).
Qed.
Lemma less_none a b f : less a b -> dirGet b f = None -> dirGet a f = None.
Proof. intros H N. destruct (dirGet a f) as [c|] eqn:E; [|reflexivity]. apply H in E. congruence. Qed.
Lemma status_not_true d seg t wn st : asyncStatus d seg t wn = Ok st -> (forall x, st <> StTrue x) -> dirGet d (seg ++ extOk) = None.
Proof.
  unfold asyncStatus. destruct (dirGet d (seg ++ extOk)) as [c|]; [|reflexivity]. destruct (statusContent c) as [(code, m)| |]; try discriminate. cbn. intros H N. injection H as <-. now elim (N _ eq_refl).
Qed.

Section LoopProof.
  Variables (seg : str) (missingRetry : bool) (queueMax size : Z).
  Variables (other : nat -> dir -> dir) (lock own more full : nat -> bool).
  Variable sync : nat -> res (option data).
  Notation loop := (getLoop seg missingRetry queueMax size other lock own more full sync).
  Variables (n0 : nat) (d0 : dir).
  (** What an outcome tells *)
  Definition outcome (o : getOut) (d' : dir) : Prop :=
    match o with
    | GotSpool c => exists i e d, sees other n0 d0 i e d /\ dirGet d seg = Some c /\ dirGet d' seg = None
    | NotFoundOk => exists i e d, sees other n0 d0 i e d /\ dirGet d seg = None /\ dirGet d (seg ++ extOk) <> None /\ dirGet d' (seg ++ extOk) = None /\
        (missingRetry = true -> dirGet e (seg ++ extOk) = None /\ (n0 < i)%nat)
    | GotSync c => exists i e d, sees other n0 d0 i e d /\ (n0 < i)%nat /\ dirGet d seg = None /\ own i = false /\ sync i = Ok (Some c)
    | NotFoundSync => exists i e d, sees other n0 d0 i e d /\ (n0 < i)%nat /\ dirGet d seg = None /\ own i = false /\ sync i = Ok None
    | GThrow code msg => exists i e d, sees other n0 d0 i e d /\ (n0 < i)%nat /\ dirGet d (seg ++ extOk) = None /\
        exists content, (dirGet d (seg ++ extError) = Some content \/ dirGet d (seg ++ extError) = None /\ dirGet d (statusGlobal ++ extError) = Some content) /\ statusContent content = Ok (code, msg)
    | GTimeout | GErr _ => True
    end.

  Lemma loop_outcome fuel : forall n first forked e o d', (first = true <-> n = n0) -> (n0 <= n)%nat -> sees other n0 d0 n e (other n e) -> (first = false -> dirGet e (seg ++ extOk) = None) ->
    loop fuel n first forked e = (o, d') -> outcome o d'.
  Proof.
    induction fuel as [|fuel IH]; intros n first forked e o d' HF Hn HS HE H; cbn [getLoop] in H; [injection H as <- <-; exact I|].
    set (d := other n e) in *. assert (Later : first = false -> (n0 < n)%nat) by (intros ->; destruct (Nat.eq_dec n n0) as [E|]; [apply HF in E; discriminate|lia]).
    destruct (asyncStatus d seg (negb first) (dirExists d seg || negb (first && missingRetry))) as [st|k|] eqn:ES; [|injection H as <- <-; exact I|injection H as <- <-; exact I].
    assert (HThrow : forall code msg, st = StThrow code msg -> outcome (GThrow code msg) d).
    { intros code msg ->. pose proof (status_not_true _ _ _ _ _ ES ltac:(discriminate)) as NO. exists n, e, d. split; [exact HS|]. unfold asyncStatus in ES. rewrite NO in ES.
      set (fileC := match dirGet d (seg ++ extError) with Some c => Some c | None => dirGet d (statusGlobal ++ extError) end) in *. destruct fileC as [content|] eqn:EC; [|discriminate]. destruct (statusContent content) as [(code', m')| |] eqn:EStat; try discriminate. cbn [bind] in ES.
      destruct first; cbn [negb] in ES; [discriminate|]. destruct content as [|c0 ct]; [discriminate|]. injection ES as -> ->. split; [now apply Later|]. split; [exact NO|]. exists (c0 :: ct). split; [|exact EStat].
      unfold fileC in EC. destruct (dirGet d (seg ++ extError)); [left; congruence|right; auto]. }
    set (found := dirExists d seg) in *. set (retry := first && missingRetry) in *.
    assert (HFound : found = true <-> dirGet d seg <> None) by (unfold found, dirExists; destruct (dirGet d seg); split; congruence).
    assert (NotFound : found = false -> dirGet d seg = None) by (unfold found, dirExists; destruct (dirGet d seg); congruence).
    set (ok := match st with StTrue _ => true | _ => false end).
    set (d1 := if ok then dirRemove d (seg ++ extOk) else d).
    assert (N1 : dirGet d1 (seg ++ extOk) = None \/ exists code msg, st = StThrow code msg).
    { unfold d1, ok. destruct st as [|x|code msg]; [left; apply (status_not_true _ _ _ _ _ ES); discriminate|left; rewrite dirGet_remove; destruct (strEqb_spec (seg ++ extOk) (seg ++ extOk)) as [_|N]; [reflexivity|elim (N eq_refl)]|eauto]. }
    assert (HOk : ok = true -> dirGet d (seg ++ extOk) <> None). { unfold ok. destruct st as [|x|]; try discriminate. intros _. destruct (status_true_ok _ _ _ _ _ ES) as (c & ->). discriminate. }
    assert (L1 : less d1 d) by (unfold d1; destruct ok; [apply less_remove|apply less_refl]).
    assert (G1 : dirGet d1 seg = dirGet d seg). { unfold d1. destruct ok; [|reflexivity]. rewrite dirGet_remove. destruct (strEqb_spec (seg ++ extOk) seg) as [E|_]; [symmetry in E; elim (self_ext seg extOk); [discriminate|exact E]|reflexivity]. }
    destruct st as [|x|code msg]; [| |injection H as <- <-; now apply HThrow].
    all: destruct N1 as [N1|(? & ? & X)]; [|discriminate].
    all: assert (H' : (if ok && negb found && negb retry then (NotFoundOk, d1) else
      match (if negb forked && (negb found || negb (full n)) && lock n then let* (d3, _) := queueNeed (if found then dirRemove d1 seg else d1) seg found queueMax size in Ok (asyncErrorClear d3 seg) else Ok (if found then dirRemove d1 seg else d1)) with
      | Err k => (GErr k, if found then dirRemove d1 seg else d1)
      | UB => (GErr EOther, if found then dirRemove d1 seg else d1)
      | Ok d3 =>
          if negb found && negb first && negb (own n) then
            match sync n with Ok (Some c) => (GotSync c, d3) | Ok None => (NotFoundSync, d3) | Err k => (GErr k, d3) | UB => (GErr EOther, d3) end
          else if found then match dirGet d1 seg with Some c => (GotSpool c, d3) | None => (GErr EAssert, d3) end
               else if more n then loop fuel (S n) false (forked || negb forked && (negb found || negb (full n)) && lock n) d3 else (GTimeout, d3)
      end) = (o, d')) by exact H.
    all: clear H; rename H' into H; clearbody ok d1.
    all: assert (Main : ok && negb found && negb retry = true -> (o, d') = (NotFoundOk, d1) -> outcome o d') by
      (intros B E; injection E as -> ->; rewrite !andb_true_iff, !negb_true_iff in B; destruct B as ((B1 & B2) & B3); exists n, e, d; split; [exact HS|]; split; [now apply NotFound|]; split; [now apply HOk|]; split; [exact N1|];
       intros HM; unfold retry in B3; rewrite HM, andb_true_r in B3; split; [now apply HE|now apply Later]).
    all: destruct (ok && negb found && negb retry) eqn:EB; [apply Main; [reflexivity|symmetry; exact H]|clear Main].
    all: set (d2 := if found then dirRemove d1 seg else d1) in *.
    all: assert (L2 : less d2 d) by (unfold d2; destruct found; [apply (less_trans _ d1); [apply less_remove|exact L1]|exact L1]).
    all: assert (N2 : dirGet d2 seg = None) by (unfold d2; destruct found eqn:Ef; [rewrite dirGet_remove; destruct (strEqb_spec seg seg) as [_|N]; [reflexivity|elim (N eq_refl)]|rewrite G1; now apply NotFound]).
    all: assert (M2 : dirGet d2 (seg ++ extOk) = None) by (apply (less_none _ d1); [unfold d2; destruct found; [apply less_remove|apply less_refl]|exact N1]).
    all: set (fork := negb forked && (negb found || negb (full n)) && lock n) in *.
    all: destruct (if fork then let* (d3, _) := queueNeed d2 seg found queueMax size in Ok (asyncErrorClear d3 seg) else Ok d2) as [d3|k|] eqn:EQ; [|injection H as <- <-; exact I|injection H as <- <-; exact I].
    all: assert (L3 : less d3 d2) by (destruct fork; [destruct (queueNeed d2 seg found queueMax size) as [(d4, need)| |] eqn:EN; try discriminate; cbn [bind] in EQ; injection EQ as <-; apply (less_trans _ d4); [unfold asyncErrorClear; eapply less_trans; apply less_remove|now apply (less_queue _ _ _ _ _ _ _ EN)]|injection EQ as <-; apply less_refl]).
    all: destruct (negb found && negb first && negb (own n)) eqn:EO.
    all: try (rewrite !andb_true_iff, !negb_true_iff in EO; destruct EO as ((O1 & O2) & O3); destruct (sync n) as [[c|]|k|] eqn:EY; injection H as <- <-; try exact I; exists n, e, d; repeat split; auto).
    all: destruct found eqn:Ef; [destruct (dirGet d1 seg) as [c|] eqn:EG; injection H as <- <-; [|exact I]; exists n, e, d; split; [exact HS|]; split; [symmetry; exact G1|now apply (less_none _ d2)]|].
    all: destruct (more n); [|injection H as <- <-; exact I].
    all: apply (IH (S n) false (forked || fork) d3 o d'); [split; [discriminate|lia]|lia| |intros _; now apply (less_none _ d2)|exact H].
    all: apply (sees_next other n0 d0 n e d d3); [exact HS|now apply (less_trans _ d2)].
  Qed.

  (** The first iteration *)
  Lemma loop_found fuel forked c : dirGet (other n0 d0) seg = Some c -> dirGet (other n0 d0) (seg ++ extOk) = None ->
    (forall content, dirGet (other n0 d0) (seg ++ extError) = Some content \/ dirGet (other n0 d0) (statusGlobal ++ extError) = Some content -> exists r, statusContent content = Ok r) ->
    (exists r, queueNeed (dirRemove (other n0 d0) seg) seg true queueMax size = Ok r) -> fst (loop (S fuel) n0 true forked d0) = GotSpool c.
  Proof.
    intros HG HO HE HQ. cbn [getLoop]. set (d := other n0 d0) in *. unfold asyncStatus. rewrite HO.
    assert (HF : dirExists d seg = true) by (unfold dirExists; now rewrite HG). rewrite HF.
    assert (X : (match (match dirGet d (seg ++ extError) with Some c => Some c | None => dirGet d (statusGlobal ++ extError) end) with
      | Some content => let* (code, message) := statusContent content in if negb true then match content with [] => Err EAssert | _ :: _ => Ok (StThrow code message) end else Ok StFalse
      | None => Ok StFalse end) = Ok StFalse).
    { destruct (dirGet d (seg ++ extError)) as [x|]; [destruct (HE x (or_introl eq_refl)) as ((a, b) & ->); reflexivity|]. destruct (dirGet d (statusGlobal ++ extError)) as [x|]; [destruct (HE x (or_intror eq_refl)) as ((a, b) & ->); reflexivity|reflexivity]. }
    rewrite X. cbn [andb negb orb]. rewrite HG.
    destruct (negb forked && negb (full n0) && lock n0); [|reflexivity]. destruct HQ as ((d4, need) & ->). reflexivity.
  Qed.
  Lemma loop_missing fuel forked : missingRetry = false -> dirGet (other n0 d0) seg = None -> dirGet (other n0 d0) (seg ++ extOk) = Some [] -> fst (loop (S fuel) n0 true forked d0) = NotFoundOk.
  Proof.
    intros HM HG HO. cbn [getLoop]. unfold asyncStatus. rewrite HO. unfold dirExists. rewrite HG, HM. reflexivity.
  Qed.
  Lemma loop_missing_later fuel n forked e : dirGet (other n e) seg = None -> dirGet (other n e) (seg ++ extOk) = Some [] -> fst (loop (S fuel) n false forked e) = NotFoundOk.
  Proof.
    intros HG HO. cbn [getLoop]. unfold asyncStatus. rewrite HO. unfold dirExists. rewrite HG. reflexivity.
  Qed.
End LoopProof.
