(** Proofs for archive-get. *)
From Verif Require Import Base Str ConvertModel SpoolModel SpoolSpec SpoolProof PushModel PushSpec PushProof LsnModel LsnSpec LsnProof GetModel GetSpec.
From Coq Require Import Permutation Sorted.
Open Scope Z_scope.

(** * Names *)
Lemma In_firstn (A : Type) n (l : list A) x : In x (firstn n l) -> In x l.
Proof. intros H. rewrite <- (firstn_skipn n l). apply in_app_iff. auto. Qed.
Lemma In_skipn (A : Type) n (l : list A) x : In x (skipn n l) -> In x l.
Proof. intros H. rewrite <- (firstn_skipn n l). apply in_app_iff. auto. Qed.
Lemma multi_spec f name : seg24 f -> multiMatch f name = true <-> exists sum, sum40 sum /\ segmentFile f sum name.
Proof.
  intros Hf. pose proof Hf as (L & F). unfold multiMatch. rewrite !andb_true_iff, !strEqb_eq, match45, sumPart_spec, Nat.leb_le. unfold strBeginsWith. rewrite strEqb_eq, L. split.
  - intros ((((E1 & L1) & _) & sum & ext & X & HS & Y) & E2). exists sum. split; [exact HS|]. exists f, ext. split; [exact Hf|]. split; [exact Y|]. left. split; [reflexivity|]. rewrite <- X, <- E2. symmetry. apply firstn_skipn.
  - intros (sum & HS & s & ext & Hs & Y & [(-> & ->)|(E & _)]).
    + assert (A : firstn 16 (s ++ 45 :: sum ++ ext) = firstn 16 s) by (rewrite firstn_app, L; cbn [Nat.sub firstn]; apply app_nil_r).
      assert (B : skipn 24 (s ++ 45 :: sum ++ ext) = 45 :: sum ++ ext) by (rewrite skipn_app, L, skipn_all2 by lia; reflexivity).
      assert (C : firstn 24 (s ++ 45 :: sum ++ ext) = s) by (rewrite firstn_app, L, firstn_all2 by lia; cbn [Nat.sub firstn]; apply app_nil_r).
      assert (D : firstn 8 (skipn 16 (s ++ 45 :: sum ++ ext)) = skipn 16 s). { rewrite skipn_app, L. cbn [Nat.sub]. rewrite skipn_O, firstn_app, skipn_length, L. cbn [Nat.sub]. rewrite firstn_O, app_nil_r. apply firstn_all2. rewrite skipn_length. lia. }
      rewrite A, B, C, D. split; [split; [split; [split; [reflexivity|rewrite app_length; lia]|]|eauto]|reflexivity].
      apply hexF. apply Forall_forall. intros c Hc. rewrite Forall_forall in F. apply F. now apply (In_skipn _ 16).
    + exfalso. apply (f_equal (@length Z)) in E. rewrite app_length in E. destruct Hs. cbn in E. lia.
Qed.
Lemma nameMatch_spec f single name : seg24 f -> (if single : bool then singleMatch f else multiMatch f) name = true <-> exists sum, sum40 sum /\ segmentFile f sum name.
Proof. intros Hf. destruct single; [|now apply multi_spec]. unfold singleMatch. apply segmentMatch_spec. exists f. auto. Qed.
Lemma seg_isSegment f : seg24 f -> walIsSegment f = true.
Proof. intros H. apply walIsSegment_spec. exists f. auto. Qed.

Section Find.
  Variable w : repos.
  Variable listErr : str -> nat -> str -> option errkind.

  Lemma archiveMatches_in f single r a g : seg24 f -> In g (archiveMatches w f single r a) <->
    exists name sum d, g = mkGFile (a ++ 47 :: firstn 16 f ++ 47 :: name) r a name /\ In (name, d) (w r a) /\ sum40 sum /\ segmentFile f sum name.
  Proof.
    intros Hf. unfold archiveMatches. rewrite (seg_isSegment f Hf). rewrite in_map_iff. split.
    - intros (n & <- & H). apply filter_In in H. destruct H as (H & M). apply (nameMatch_spec f single n Hf) in M. destruct M as (sum & HS & SF). apply in_map_iff in H. destruct H as ((n', d) & E & H). cbn in E. subst n'. exists n, sum, d. auto.
    - intros (n & sum & d & -> & H & HS & SF). exists n. split; [reflexivity|]. apply filter_In. split; [apply in_map_iff; exists (n, d); auto|]. apply (nameMatch_spec f single n Hf). eauto.
  Qed.
  Lemma repoMatches_sound f single r l g : In g (fst (repoMatches w listErr f single r l)) -> exists a, In a l /\ In g (archiveMatches w f single r a).
  Proof.
    induction l as [|a l IH]; cbn; [tauto|]. destruct (listErr f r a); [cbn; tauto|]. destruct (repoMatches w listErr f single r l) as (m, e). cbn in *. rewrite in_app_iff. intros [H|H]; [exists a; auto|]. destruct (IH H) as (a' & H1 & H2). exists a'. auto.
  Qed.
  Lemma repoMatches_all f single r l : (forall a, In a l -> listErr f r a = None) -> snd (repoMatches w listErr f single r l) = false /\ forall a g, In a l -> In g (archiveMatches w f single r a) -> In g (fst (repoMatches w listErr f single r l)).
  Proof.
    induction l as [|a l IH]; intros H; cbn; [split; [reflexivity|tauto]|]. rewrite (H a (or_introl eq_refl)). destruct IH as (IH1 & IH2); [intros; apply H; now right|]. destruct (repoMatches w listErr f single r l) as (m, e). cbn in *. split; [exact IH1|].
    intros a' g [->|Ha] Hg; apply in_app_iff; [now left|]. right. now apply (IH2 a').
  Qed.
  Lemma repoMatches_err f single r l : snd (repoMatches w listErr f single r l) = true -> exists a k, In a l /\ listErr f r a = Some k.
  Proof.
    induction l as [|a l IH]; cbn; [discriminate|]. destruct (listErr f r a) as [k|] eqn:E; [intros _; eauto|]. destruct (repoMatches w listErr f single r l) as (m, e). cbn in *. intros H. destruct (IH H) as (a' & k & H1 & H2). eauto.
  Qed.
  Lemma reposMatches_sound f single cr g : In g (fst (reposMatches w listErr f single cr)) -> exists c a, In c cr /\ In a (crArchives c) /\ In g (archiveMatches w f single (crIdx c) a).
  Proof.
    induction cr as [|c cr IH]; cbn; [tauto|]. pose proof (repoMatches_sound f single (crIdx c) (crArchives c)) as R. destruct (repoMatches w listErr f single (crIdx c) (crArchives c)) as (m, e). destruct (reposMatches w listErr f single cr) as (m', n). cbn in *. rewrite in_app_iff. intros [H|H].
    - destruct (R g H) as (a & H1 & H2). exists c, a. auto.
    - destruct (IH H) as (c' & a & H1 & H2). exists c', a. tauto.
  Qed.
  Lemma reposMatches_all f single cr : (forall c a, In c cr -> In a (crArchives c) -> listErr f (crIdx c) a = None) ->
    snd (reposMatches w listErr f single cr) = O /\ forall c a g, In c cr -> In a (crArchives c) -> In g (archiveMatches w f single (crIdx c) a) -> In g (fst (reposMatches w listErr f single cr)).
  Proof.
    induction cr as [|c cr IH]; intros H; cbn; [split; [reflexivity|tauto]|]. destruct (repoMatches_all f single (crIdx c) (crArchives c)) as (R1 & R2); [intros a Ha; apply H; [now left|exact Ha]|]. destruct IH as (IH1 & IH2); [intros c' a Hc Ha; apply H; [now right|exact Ha]|].
    destruct (repoMatches w listErr f single (crIdx c) (crArchives c)) as (m, e). destruct (reposMatches w listErr f single cr) as (m', n). cbn in *. subst. split; [reflexivity|]. intros c' a g [->|Hc] Ha Hg; apply in_app_iff; [left; now apply (R2 a)|right; now apply (IH2 c' a)].
  Qed.
  Lemma reposMatches_n f single cr : (snd (reposMatches w listErr f single cr) <= length cr)%nat /\
    (snd (reposMatches w listErr f single cr) = length cr -> forall c, In c cr -> exists a k, In a (crArchives c) /\ listErr f (crIdx c) a = Some k).
  Proof.
    induction cr as [|c cr IH]; cbn; [split; [lia|tauto]|]. pose proof (repoMatches_err f single (crIdx c) (crArchives c)) as R. destruct (repoMatches w listErr f single (crIdx c) (crArchives c)) as (m, e). destruct (reposMatches w listErr f single cr) as (m', n). cbn in *. destruct IH as (I1 & I2). split; [destruct e; lia|].
    intros E c' [<-|Hc]; destruct e; try lia; [now apply R|apply I2; [lia|exact Hc]].
  Qed.
  Lemma reposMatches_offers f single cr g : seg24 f -> In g (fst (reposMatches w listErr f single cr)) ->
    exists sum, g = mkGFile (gfArchive g ++ 47 :: firstn 16 f ++ 47 :: gfName g) (gfRepo g) (gfArchive g) (gfName g) /\ offers w cr f (gfRepo g) (gfArchive g) (gfName g) sum.
  Proof.
    intros Hf H. apply reposMatches_sound in H. destruct H as (c & a & Hc & Ha & H). apply archiveMatches_in in H; [|exact Hf]. destruct H as (n & sum & d & -> & H1 & H2 & H3). exists sum. cbn. split; [reflexivity|]. unfold offers. split; [exists c; auto|]. split; [eauto|]. auto.
  Qed.

End Find.

(** * Unique keys *)
Lemma addIfMissing_in l s x : In x (addIfMissing l s) <-> In x l \/ x = s.
Proof. unfold addIfMissing. destruct (strLstExists_spec l s) as [H|H]; [split; [tauto|]; intros [?| ->]; auto|]. rewrite in_app_iff. cbn. split; intros [?|[?|?]] || (intros [?|?]); auto; tauto. Qed.
Lemma addIfMissing_nodup l s : NoDup l -> NoDup (addIfMissing l s).
Proof. intros H. unfold addIfMissing. destruct (strLstExists_spec l s) as [|N]; [exact H|]. apply (Permutation_NoDup (Permutation_cons_append l s)). now constructor. Qed.
Lemma hashList_spec l : NoDup (hashList l) /\ forall x, In x (hashList l) <-> exists g, In g l /\ hashKey g = x.
Proof.
  unfold hashList. assert (H : forall acc, NoDup acc -> NoDup (fold_left (fun h f => addIfMissing h (hashKey f)) l acc) /\ forall x, In x (fold_left (fun h f => addIfMissing h (hashKey f)) l acc) <-> In x acc \/ exists g, In g l /\ hashKey g = x).
  { induction l as [|g l IH]; intros acc Ha; cbn; [split; [exact Ha|]; intros x; split; [auto|]; intros [H|(g & [] & _)]; exact H|]. destruct (IH _ (addIfMissing_nodup acc (hashKey g) Ha)) as (I1 & I2). split; [exact I1|]. intros x. rewrite I2, addIfMissing_in. split.
    - intros [[H| ->]|(g' & H & E)]; [auto|right; exists g; auto|right; exists g'; auto].
    - intros [H|(g' & [<-|H] & E)]; [auto|left; right; symmetry; exact E|right; exists g'; auto]. }
  destruct (H [] (NoDup_nil _)) as (H1 & H2). split; [exact H1|]. intros x. rewrite H2. cbn. tauto.
Qed.
Lemma hashList_many l : (1 < length (hashList l))%nat <-> exists g1 g2, In g1 l /\ In g2 l /\ hashKey g1 <> hashKey g2.
Proof.
  destruct (hashList_spec l) as (ND & HI). split.
  - intros L. destruct (hashList l) as [|x [|y t]]; cbn in L; try lia. destruct (proj1 (HI x) (or_introl eq_refl)) as (g1 & H1 & E1). destruct (proj1 (HI y) (or_intror (or_introl eq_refl))) as (g2 & H2 & E2). exists g1, g2. repeat split; auto. rewrite E1, E2.
    intros ->. inversion ND as [|? ? NI]. apply NI. now left.
  - intros (g1 & g2 & H1 & H2 & N). destruct (hashList l) as [|x [|y t]]; cbn; [destruct (proj2 (HI (hashKey g1))); eauto| |lia].
    destruct (proj2 (HI (hashKey g1)) ltac:(eauto)) as [E1|[]]. destruct (proj2 (HI (hashKey g2)) ltac:(eauto)) as [E2|[]]. congruence.
Qed.

(** * The compared part *)
Lemma hashKey_of f a name r sum : seg24 f -> (length a <= 22)%nat -> sum40 sum -> segmentFile f sum name ->
  hashKey (mkGFile (a ++ 47 :: firstn 16 f ++ 47 :: name) r a name) = skipn (25 - length a) (47 :: firstn 16 f ++ 47 :: f ++ [45]) ++ firstn (22 - length a) sum.
Proof.
  intros (L & _) La (Ls & _) (s & ext & (L2 & _) & _ & [(-> & ->)|(E & _)]); [|apply (f_equal (@length Z)) in E; rewrite app_length in E; cbn in E; lia].
  unfold hashKey. cbn [gfFile]. assert (L16 : length (firstn 16 s) = 16%nat) by (rewrite firstn_length; lia). set (p := 47 :: firstn 16 s ++ 47 :: s ++ [45]).
  assert (Ep : 47 :: firstn 16 s ++ 47 :: s ++ 45 :: sum ++ ext = p ++ sum ++ ext). { unfold p. cbn [app]. f_equal. rewrite <- app_assoc. cbn [app]. f_equal. f_equal. now rewrite <- app_assoc. }
  rewrite Ep. assert (Lp : length p = 43%nat). { unfold p. cbn [length]. rewrite app_length. cbn [length]. rewrite app_length, L16. cbn [length]. lia. }
  rewrite skipn_app, (skipn_all2 a) by lia. cbn [app]. rewrite skipn_app, Lp. replace (25 - length a - 43)%nat with 0%nat by lia. cbn [skipn].
  rewrite firstn_app, skipn_length, Lp. rewrite (firstn_all2 (skipn _ p)) by (rewrite skipn_length; lia). f_equal. replace (40 - (43 - (25 - length a)))%nat with (22 - length a)%nat by lia.
  rewrite firstn_app. replace (22 - length a - length sum)%nat with 0%nat by lia. now rewrite app_nil_r.
Qed.

Lemma sum_fun f sum1 sum2 name : seg24 f -> sum40 sum1 -> sum40 sum2 -> segmentFile f sum1 name -> segmentFile f sum2 name -> sum1 = sum2.
Proof.
  intros (L & _) (L1 & _) (L2 & _) (s1 & e1 & (A1 & _) & _ & [(-> & ->)|(E & _)]) (s2 & e2 & (A2 & _) & _ & [(<- & E2)|(E2 & _)]); try (apply (f_equal (@length Z)) in E; rewrite app_length in E; cbn in E; lia); try (apply (f_equal (@length Z)) in E2; rewrite app_length in E2; cbn in E2; lia).
  apply app_inv_head in E2. injection E2 as E2. apply (f_equal (firstn 40)) in E2. rewrite !firstn_app, L1, L2 in E2. rewrite !Nat.sub_diag, !firstn_O in E2. rewrite !app_nil_r in E2. rewrite !firstn_all2 in E2 by lia. congruence.
Qed.

(** * Find *)
Section Exact.
  Variable w : repos.
  Variable listErr : str -> nat -> str -> option errkind.
  Variable cr : list crepo.
  Variable k : nat.
  Hypothesis Hk : idLength cr k.
  Hypothesis Hk22 : (k <= 22)%nat.

  Lemma key_of f single g : seg24 f -> In g (fst (reposMatches w listErr f single cr)) -> exists sum, offers w cr f (gfRepo g) (gfArchive g) (gfName g) sum /\
    hashKey g = skipn (25 - k) (47 :: firstn 16 f ++ 47 :: f ++ [45]) ++ firstn (22 - k) sum.
  Proof.
    intros Hf H. destruct (reposMatches_offers w listErr f single cr g Hf H) as (sum & E & O). exists sum. split; [exact O|]. destruct O as ((c & Hc & _ & Ha) & _ & HS & SF). specialize (Hk c _ Hc Ha). rewrite E, <- Hk. apply hashKey_of; auto. lia.
  Qed.

  Lemma find_sound f single out : seg24 f -> getFind w listErr f single cr = out ->
    match out with
    | FMap l => l <> [] /\ forall g, In g l -> g = mkGFile (gfArchive g ++ 47 :: firstn 16 f ++ 47 :: gfName g) (gfRepo g) (gfArchive g) (gfName g) /\ exists sum, offers w cr f (gfRepo g) (gfArchive g) (gfName g) sum
    | FErr EArchiveDuplicate => exists r1 a1 n1 s1 r2 a2 n2 s2, offers w cr f r1 a1 n1 s1 /\ offers w cr f r2 a2 n2 s2 /\ firstn (22 - k) s1 <> firstn (22 - k) s2
    | FErr e => e = ERepoInvalid /\ forall c, In c cr -> exists a x, In a (crArchives c) /\ listErr f (crIdx c) a = Some x
    | FMissing => True
    end.
  Proof.
    intros Hf <-. unfold getFind. pose proof (reposMatches_n w listErr f single cr) as (_ & RN). pose proof (fun g => reposMatches_offers w listErr f single cr g) as RO. pose proof (key_of f single) as KO. destruct (reposMatches w listErr f single cr) as (m, n) eqn:EM. cbn [fst snd] in *. destruct (Nat.eqb_spec n (length cr)) as [En|En]; [split; [reflexivity|exact (RN En)]|].
    destruct m as [|g0 m']; [exact I|]. set (m := g0 :: m') in *. rewrite (seg_isSegment f Hf). cbn [andb].
    destruct ((1 <? length m)%nat && (1 <? length (hashList m))%nat) eqn:ED.
    - apply andb_true_iff in ED. destruct ED as (_ & ED). apply Nat.ltb_lt, hashList_many in ED. destruct ED as (g1 & g2 & H1 & H2 & N). destruct (KO g1 Hf H1) as (s1 & O1 & K1). destruct (KO g2 Hf H2) as (s2 & O2 & K2).
      exists (gfRepo g1), (gfArchive g1), (gfName g1), s1, (gfRepo g2), (gfArchive g2), (gfName g2), s2. split; [exact O1|]. split; [exact O2|]. intros E. apply N. now rewrite K1, K2, E.
    - split; [discriminate|]. intros g Hg. destruct (RO g Hf Hg) as (s & E & O). eauto.
  Qed.
  Lemma find_complete f single : seg24 f -> cr <> [] -> (forall c a, In c cr -> In a (crArchives c) -> listErr f (crIdx c) a = None) ->
    match getFind w listErr f single cr with
    | FMap l => (forall r a n s, offers w cr f r a n s -> In (mkGFile (a ++ 47 :: firstn 16 f ++ 47 :: n) r a n) l) /\
                forall r1 a1 n1 s1 r2 a2 n2 s2, offers w cr f r1 a1 n1 s1 -> offers w cr f r2 a2 n2 s2 -> firstn (22 - k) s1 = firstn (22 - k) s2
    | FErr e => e = EArchiveDuplicate
    | FMissing => forall r a n s, ~ offers w cr f r a n s
    end.
  Proof.
    intros Hf Ne HL. pose proof (reposMatches_all w listErr f single cr HL) as (R1 & R2). pose proof (key_of f single) as KO. unfold getFind. destruct (reposMatches w listErr f single cr) as (m, n) eqn:EM. cbn [fst snd] in *. subst n.
    destruct (Nat.eqb_spec 0 (length cr)) as [En|_]; [destruct cr; [congruence|discriminate]|].
    assert (All : forall r a nm s, offers w cr f r a nm s -> In (mkGFile (a ++ 47 :: firstn 16 f ++ 47 :: nm) r a nm) m).
    { intros r a nm s ((c & Hc & <- & Ha) & (d & Hd) & HS & SF). apply (R2 c a _ Hc Ha). apply archiveMatches_in; [exact Hf|]. exists nm, s, d. auto. }
    destruct m as [|g0 m']; [intros r a nm s O; exact (All _ _ _ _ O)|]. set (m := g0 :: m') in *. rewrite (seg_isSegment f Hf). cbn [andb].
    destruct ((1 <? length m)%nat && (1 <? length (hashList m))%nat) eqn:ED; [reflexivity|]. split; [exact All|].
    intros r1 a1 n1 s1 r2 a2 n2 s2 O1 O2. destruct (str_dec (firstn (22 - k) s1) (firstn (22 - k) s2)) as [E|N]; [exact E|exfalso].
    pose proof (All _ _ _ _ O1) as I1. pose proof (All _ _ _ _ O2) as I2. set (g1 := mkGFile (a1 ++ 47 :: firstn 16 f ++ 47 :: n1) r1 a1 n1) in *. set (g2 := mkGFile (a2 ++ 47 :: firstn 16 f ++ 47 :: n2) r2 a2 n2) in *.
    destruct (KO g1 Hf I1) as (t1 & P1 & K1). destruct (KO g2 Hf I2) as (t2 & P2 & K2). cbn in P1, P2.
    assert (t1 = s1) by (apply (sum_fun f t1 s1 n1 Hf); [apply P1|apply O1|apply P1|apply O1]). assert (t2 = s2) by (apply (sum_fun f t2 s2 n2 Hf); [apply P2|apply O2|apply P2|apply O2]). subst t1 t2.
    assert (NK : hashKey g1 <> hashKey g2) by (rewrite K1, K2; intros E; apply app_inv_head in E; congruence).
    assert (L1 : (1 < length (hashList m))%nat) by (apply hashList_many; exists g1, g2; auto).
    assert (L2 : (1 < length m)%nat) by (subst m; destruct m' as [|y t]; [exfalso; destruct I1 as [I1|[]]; destruct I2 as [I2|[]]; congruence|cbn; lia]).
    apply andb_false_iff in ED. destruct ED as [ED|ED]; apply Nat.ltb_ge in ED; lia.
  Qed.
End Exact.

(** * Files that are not segments *)
Lemma find_other w listErr cr f single : walIsSegment f = false -> (forall c a, In c cr -> In a (crArchives c) -> listErr f (crIdx c) a = None) -> cr <> [] ->
  match getFind w listErr f single cr with
  | FMap l => l <> [] /\ forall g, In g l <-> exists c a d, In c cr /\ In a (crArchives c) /\ In (f, d) (w (crIdx c) a) /\ g = mkGFile (a ++ 47 :: f) (crIdx c) a f
  | FMissing => forall c a d, In c cr -> In a (crArchives c) -> ~ In (f, d) (w (crIdx c) a)
  | FErr _ => False
  end.
Proof.
  intros HS HL Ne. pose proof (reposMatches_all w listErr f single cr HL) as (R1 & R2). pose proof (fun g => reposMatches_sound w listErr f single cr g) as R3. unfold getFind. destruct (reposMatches w listErr f single cr) as (m, n). cbn [fst snd] in *. subst n.
  destruct (Nat.eqb_spec 0 (length cr)) as [En|_]; [destruct cr; [congruence|discriminate]|]. rewrite HS. cbn [andb].
  assert (AM : forall r a g, In g (archiveMatches w f single r a) <-> exists d, In (f, d) (w r a) /\ g = mkGFile (a ++ 47 :: f) r a f).
  { intros r a g. unfold archiveMatches. rewrite HS. destruct (strLstExists_spec (map fst (w r a)) f) as [H|H].
    - apply in_map_iff in H. destruct H as ((f', d) & E & H). cbn in E. subst f'. split; [intros [<-|[]]; eauto|intros (_ & _ & ->); now left].
    - split; [intros []|]. intros (d & Hd & _). apply H. apply in_map_iff. exists (f, d). auto. }
  assert (All : forall g, In g m <-> exists c a d, In c cr /\ In a (crArchives c) /\ In (f, d) (w (crIdx c) a) /\ g = mkGFile (a ++ 47 :: f) (crIdx c) a f).
  { intros g. split.
    - intros H. destruct (R3 g H) as (c & a & Hc & Ha & Hg). apply AM in Hg. destruct Hg as (d & Hd & E). exists c, a, d. auto.
    - intros (c & a & d & Hc & Ha & Hd & E). apply (R2 c a g Hc Ha). apply AM. eauto. }
  destruct m as [|g0 m']; [|split; [discriminate|exact All]]. intros c a d Hc Ha Hd. apply (All (mkGFile (a ++ 47 :: f) (crIdx c) a f)). exists c, a, d. auto.
Qed.

(** * All requests *)
Lemma findAll_spec w listErr single cr reqs : let '(m, e) := findAll w listErr reqs single cr in
  (length m <= length reqs)%nat /\ map fst m = firstn (length m) reqs /\ (forall q l, In (q, l) m -> getFind w listErr q single cr = FMap l) /\
  match nth_error reqs (length m) with
  | None => e = None
  | Some q => match e with None => getFind w listErr q single cr = FMissing | Some (x, q') => q' = q /\ getFind w listErr q single cr = FErr x end
  end.
Proof.
  induction reqs as [|q reqs IH]; cbn; [repeat split; [lia|tauto]|]. destruct (getFind w listErr q single cr) as [x| |l] eqn:E; cbn; [repeat split; [lia|tauto|exact E]|repeat split; [lia|tauto|exact E]|].
  destruct (findAll w listErr reqs single cr) as (m, e). destruct IH as (I1 & I2 & I3 & I4). cbn. split; [lia|]. split; [now rewrite I2|]. split; [intros q' l' [H|H]; [injection H as <- <-; exact E|now apply I3]|exact I4].
Qed.

(** * Archive ids *)
Lemma archiveIds_in v s l paths : forall first ids, archiveIds v s first l paths = Ok ids -> forall a, In a ids <->
  exists i, nth_error l i = Some (a, v, s) /\ ((first = true /\ i = O) \/ exists p, paths = Ok p /\ In a p).
Proof.
  induction l as [|((a0, v0), s0) l IH]; intros first ids H a; cbn [archiveIds] in H.
  { injection H as <-. split; [intros []|]. intros (i & E & _). destruct i; discriminate. }
  destruct ((s0 =? s) && (v0 =? v)) eqn:E.
  - apply andb_true_iff in E. destruct E as (E1 & E2). apply Z.eqb_eq in E1, E2. subst s0 v0.
    assert (exists found r, (if first then Ok true else let* p := paths in Ok (strLstExists p a0)) = Ok found /\ archiveIds v s false l paths = Ok r /\ ids = if found then a0 :: r else r) as (found & r & F & R & ->).
    { destruct (if first then Ok true else let* p := paths in Ok (strLstExists p a0)) as [found| |]; [|discriminate|discriminate]. cbn [bind] in H. destruct (archiveIds v s false l paths) as [r| |]; [|discriminate|discriminate]. cbn [bind] in H. injection H as <-. eauto. }
    specialize (IH false r R a).
    assert (FS : found = true <-> first = true \/ exists p, paths = Ok p /\ In a0 p).
    { destruct first; [injection F as <-; tauto|]. destruct paths as [p| |]; [|discriminate|discriminate]. cbn in F. injection F as <-. rewrite strLstExists_in. split; [eauto|]. intros [?|(p' & E & ?)]; [discriminate|]. injection E as <-. assumption. }
    split.
    + intros H1. assert (C : (found = true /\ a = a0) \/ In a r) by (destruct found; [destruct H1 as [<-|H1]; auto|auto]). destruct C as [(C & ->)|C].
      * exists O. split; [reflexivity|]. apply FS in C. destruct C; auto.
      * apply IH in C. destruct C as (i & E & C). exists (S i). split; [exact E|]. destruct C as [(C & _)|C]; [discriminate|auto].
    + intros (i & E & C). destruct i as [|i]; cbn in E.
      * injection E as ->. assert (found = true) as -> by (apply FS; destruct C as [(C & _)|C]; auto). now left.
      * assert (In a r) by (apply IH; exists i; split; [exact E|]; destruct C as [(_ & C)|C]; [discriminate|auto]). destruct found; [now right|assumption].
  - rewrite (IH false ids H a). split.
    + intros (i & E' & C). exists (S i). split; [exact E'|]. destruct C as [(C & _)|C]; [discriminate|auto].
    + intros (i & E' & C). destruct i as [|i]; cbn in E'; [injection E' as -> -> ->; rewrite !Z.eqb_refl in E; discriminate|]. exists i. split; [exact E'|]. destruct C as [(_ & C)|C]; [discriminate|auto].
Qed.
Lemma cacheRepos_in v s only infos : forall idx c, In c (fst (cacheRepos v s only idx infos)) <->
  exists i h, nth_error infos i = Some h /\ crIdx c = (idx + i)%nat /\ (only = None \/ only = Some (idx + i)%nat) /\ crArchives c <> [] /\
    exists l, riInfo h = Ok l /\ archiveIds v s true l (riPaths h) = Ok (crArchives c).
Proof.
  induction infos as [|h infos IH]; intros idx c; cbn [cacheRepos]; [split; [intros []|intros (i & h & E & _); destruct i; discriminate]|].
  specialize (IH (S idx) c). destruct (cacheRepos v s only (S idx) infos) as (cr, e). cbn [fst] in IH.
  assert (Step : forall P : Prop, ((P <-> (only = None \/ only = Some idx) /\ crIdx c = idx /\ crArchives c <> [] /\ exists l, riInfo h = Ok l /\ archiveIds v s true l (riPaths h) = Ok (crArchives c))) -> (P \/ In c cr <->
     exists i h0, nth_error (h :: infos) i = Some h0 /\ crIdx c = (idx + i)%nat /\ (only = None \/ only = Some (idx + i)%nat) /\ crArchives c <> [] /\ exists l, riInfo h0 = Ok l /\ archiveIds v s true l (riPaths h0) = Ok (crArchives c))).
  { intros P HP. rewrite HP, IH. split.
    - intros [(H1 & H2 & H3)|(i & h0 & E & H1 & H2)]; [exists O, h; cbn; rewrite Nat.add_0_r; auto|]. exists (S i), h0. cbn [nth_error]. rewrite Nat.add_succ_r. cbn in *. auto.
    - intros (i & h0 & E & H1 & H2). destruct i as [|i]; cbn in E; [injection E as <-; rewrite Nat.add_0_r in *; tauto|]. right. exists i, h0. rewrite Nat.add_succ_r in *. cbn in *. auto. }
  destruct (match only with Some k => negb (Nat.eqb k idx) | None => false end) eqn:EO.
  - cbn [fst]. rewrite <- (Step False); [tauto|]. split; [tauto|]. intros ([->| ->] & _); [discriminate|]. rewrite Nat.eqb_refl in EO. discriminate.
  - assert (HO : only = None \/ only = Some idx) by (destruct only as [o|]; [|auto]; apply negb_false_iff, Nat.eqb_eq in EO; subst; auto).
    destruct (riInfo h) as [l| |] eqn:EI; cbn [bind].
    + destruct (archiveIds v s true l (riPaths h)) as [[|a ids]| |] eqn:EA; cbn [fst].
      * rewrite <- (Step False); [tauto|]. split; [tauto|]. intros (_ & _ & N & l' & E & E'). injection E as <-. congruence.
      * rewrite <- (Step (mkCRepo idx (a :: ids) = c)); [cbn [In]; tauto|]. split; [intros <-; cbn; repeat split; auto; [discriminate|]; exists l; auto|]. intros (_ & H2 & _ & l' & E & E'). injection E as <-. rewrite EA in E'. destruct c; cbn in *. congruence.
      * rewrite <- (Step False); [tauto|]. split; [tauto|]. intros (_ & _ & N & l' & E & E'). injection E as <-. congruence.
      * rewrite <- (Step False); [tauto|]. split; [tauto|]. intros (_ & _ & N & l' & E & E'). injection E as <-. congruence.
    + cbn [fst]. rewrite <- (Step False); [tauto|]. split; [tauto|]. intros (_ & _ & N & l' & E & E'). discriminate.
    + cbn [fst]. rewrite <- (Step False); [tauto|]. split; [tauto|]. intros (_ & _ & N & l' & E & E'). discriminate.
Qed.

(** * Copy *)
Lemma getFile_spec read l : forall idx, match getFile read idx l with
  | Ok (i, d) => exists j f, i = (idx + j)%nat /\ nth_error l j = Some f /\ read f = Ok d /\ forall j' f', (j' < j)%nat -> nth_error l j' = Some f' -> forall d', read f' <> Ok d'
  | Err k => k = EFileRead /\ forall f d, In f l -> read f <> Ok d
  | UB => False
  end.
Proof.
  induction l as [|f l IH]; intros idx; cbn [getFile]; [split; [reflexivity|tauto]|]. specialize (IH (S idx)).
  assert (R : (forall d, read f <> Ok d) -> match getFile read (S idx) l with
    | Ok (i, d) => exists j f0, i = (idx + j)%nat /\ nth_error (f :: l) j = Some f0 /\ read f0 = Ok d /\ forall j' f', (j' < j)%nat -> nth_error (f :: l) j' = Some f' -> forall d', read f' <> Ok d'
    | Err k => k = EFileRead /\ forall f0 d, In f0 (f :: l) -> read f0 <> Ok d
    | UB => False end).
  { intros N. destruct (getFile read (S idx) l) as [(i, d)|k|]; [|destruct IH as (-> & IH); split; [reflexivity|]; intros f0 d [<-|H]; [apply N|now apply IH]|exact IH].
    destruct IH as (j & f0 & -> & H1 & H2 & H3). exists (S j), f0. split; [lia|]. split; [exact H1|]. split; [exact H2|]. intros [|j'] f' Lt E; [injection E as <-; exact N|]. apply (H3 j' f'); [lia|exact E]. }
  destruct (read f) as [d|e|] eqn:E; [|apply R; congruence|apply R; congruence]. exists O, f. split; [lia|]. split; [reflexivity|]. split; [exact E|]. intros; lia.
Qed.
