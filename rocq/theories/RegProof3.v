(** What the expressions for names match. *)
From Coq Require Import String Ascii.
From Verif Require Import Base Str RegModel RegNameModel RegSpec RegProof RegProof2.
Open Scope Z_scope.

(** Expressions that do not look at what is before and after *)
Definition lang (r : re) (L : str -> Prop) : Prop := forall b m a, matches r b m a <-> L m.
Definition then_ (L1 L2 : str -> Prop) (s : str) : Prop := exists s1 s2, s = s1 ++ s2 /\ L1 s1 /\ L2 s2.

Lemma lang_cat p q L1 L2 : lang p L1 -> lang q L2 -> lang (RCat p q) (then_ L1 L2).
Proof.
  intros H1 H2 b m a. rewrite matches_cat. split; intros (m1 & m2 & -> & A & B); exists m1, m2; (split; [reflexivity|]).
  - split; [apply H1 in A; exact A|apply H2 in B; exact B].
  - split; [apply H1; exact A|apply H2; exact B].
Qed.
Lemma lang_alt p q L1 L2 : lang p L1 -> lang q L2 -> lang (RAlt p q) (fun s => L1 s \/ L2 s).
Proof. intros H1 H2 b m a. rewrite matches_alt, (H1 b m a), (H2 b m a). reflexivity. Qed.
Lemma lang_eps : lang REps (fun s => s = []).
Proof. intros b m a. apply matches_eps. Qed.
Lemma lang_chr c : lang (RCls false [(c, c)]) (fun s => s = [c]).
Proof. intros b m a. apply (matches_chr c). Qed.
Lemma lang_any : lang rAny (fun s => exists c, s = [c]).
Proof. intros b m a. apply matches_any. Qed.
Lemma lang_ext r L L' : lang r L -> (forall s, L s <-> L' s) -> lang r L'.
Proof. intros H E b m a. rewrite (H b m a). apply E. Qed.
Lemma lang_class lo hi n : lang (rTimes (RCls false [(lo, hi)]) n) (fun s => length s = n /\ between lo hi s).
Proof.
  induction n as [|n IH].
  - eapply lang_ext; [apply lang_eps|]. intros s. split; [intros ->; split; [reflexivity|intros c []]|].
    intros [H _]. destruct s; [reflexivity|discriminate].
  - cbn [rTimes]. intros b m a. rewrite matches_cat. split.
    + intros (m1 & m2 & -> & A & B). apply matches_range in A as (c & -> & Hc). apply IH in B as [B1 B2].
      split; [cbn; rewrite B1; reflexivity|]. intros d [<-|Hd]; [exact Hc|exact (B2 d Hd)].
    + intros [L B]. destruct m as [|c m]; [discriminate|]. exists [c], m. split; [reflexivity|]. split.
      * apply matches_range. exists c. split; [reflexivity|]. apply B. left; reflexivity.
      * apply IH. split; [cbn in L; lia|]. intros d Hd. apply B. right; exact Hd.
Qed.
(** {n} of a class *)
Lemma lang_count lo hi n : lang (rRepeat (RCls false [(lo, hi)]) n (Some n)) (fun s => length s = n /\ between lo hi s).
Proof.
  unfold rRepeat. rewrite Nat.sub_diag. cbn [rUpTo]. eapply lang_ext; [apply lang_cat; [apply lang_class|apply lang_eps]|].
  intros s. split.
  - intros (s1 & s2 & -> & H & ->). rewrite app_nil_r. exact H.
  - intros H. exists s, []. rewrite app_nil_r. auto.
Qed.
(** {0,1} *)
Lemma lang_option r L : lang r L -> lang (rRepeat r 0 (Some 1%nat)) (fun s => s = [] \/ L s).
Proof.
  intros H. unfold rRepeat. cbn [rTimes Nat.sub rUpTo].
  eapply lang_ext; [apply lang_cat; [apply lang_eps|apply lang_alt; [apply lang_eps|apply lang_cat; [exact H|apply lang_eps]]]|].
  intros s. split.
  - intros (s1 & s2 & -> & -> & [->|(s3 & s4 & -> & L1 & ->)]); [left; reflexivity|right]. rewrite app_nil_r. exact L1.
  - intros [->|L1]; [exists [], []; auto|]. exists [], s. split; [reflexivity|]. split; [reflexivity|]. right. exists s, []. rewrite app_nil_r. auto.
Qed.

Definition catAll (l : list re) : re := fold_right RCat REps l.
Lemma lang_lit p : lang (catAll (map rChr p)) (fun s => s = p).
Proof.
  induction p as [|c p IH]; cbn [map catAll fold_right]; [apply lang_eps|].
  eapply lang_ext; [apply lang_cat; [apply lang_chr|exact IH]|]. intros s. split.
  - intros (s1 & s2 & -> & -> & ->). reflexivity.
  - intros ->. exists [c], p. auto.
Qed.

(** ^...$ around such expressions *)
Lemma found_anchored r L s : lang r L -> found (RCat RBeg (RCat r (RCat REnd REps))) s <-> L s.
Proof.
  intros H. unfold found. split.
  - intros (b & m & a & -> & M). apply matches_cat in M as (m1 & m2 & -> & M1 & M2). apply matches_beg in M1 as [-> ->].
    apply matches_cat in M2 as (m3 & m4 & -> & M2 & M3). apply matches_cat in M3 as (m5 & m6 & -> & M3 & M4).
    apply matches_end in M3 as [-> E]. apply matches_eps in M4. subst m6. cbn in E. subst a. rewrite !app_nil_r. cbn [app]. apply H in M2. exact M2.
  - intros A. exists [], s, []. rewrite app_nil_r. split; [reflexivity|].
    apply matches_cat. exists [], s. split; [reflexivity|]. split; [constructor|]. apply matches_cat. exists s, []. rewrite app_nil_r.
    split; [reflexivity|]. split; [apply H; exact A|]. apply matches_cat. exists [], []. repeat split; constructor.
Qed.
Lemma catAll_app l1 l2 b m a : matches (catAll (l1 ++ l2)) b m a <-> matches (RCat (catAll l1) (catAll l2)) b m a.
Proof.
  revert b m a. induction l1 as [|r l1 IH]; intros b m a; cbn [app catAll fold_right].
  - rewrite matches_cat. split.
    + intros H. exists [], m. rewrite app_nil_r. split; [reflexivity|]. split; [constructor|exact H].
    + intros (m1 & m2 & -> & H1 & H2). apply matches_eps in H1. subst m1. rewrite app_nil_r in H2. exact H2.
  - fold (catAll (l1 ++ l2)) (catAll l1). rewrite !matches_cat. split.
    + intros (m1 & m2 & -> & H1 & H2). apply IH in H2. apply matches_cat in H2 as (m3 & m4 & -> & H2 & H3).
      exists (m1 ++ m3), m4. split; [apply app_assoc|]. split; [|rewrite app_assoc; exact H3].
      apply matches_cat. exists m1, m3. split; [reflexivity|]. split; [rewrite <- app_assoc in H1; exact H1|exact H2].
    + intros (m1 & m2 & -> & H1 & H2). apply matches_cat in H1 as (m3 & m4 & -> & H1 & H3).
      exists m3, (m4 ++ m2). split; [symmetry; apply app_assoc|]. split; [rewrite <- app_assoc; exact H1|].
      apply IH. apply matches_cat. exists m4, m2. split; [reflexivity|]. split; [exact H3|rewrite <- app_assoc; exact H2].
Qed.
Lemma found_ext r r' s : (forall b m a, matches r b m a <-> matches r' b m a) -> found r s <-> found r' s.
Proof. intros E. unfold found. split; intros (b & m & a & H1 & H2); exists b, m, a; (split; [exact H1|]); apply E; exact H2. Qed.
Lemma found_pieces l L s : lang (catAll l) L -> found (catAll (RBeg :: l ++ [REnd])) s <-> L s.
Proof.
  intros H. rewrite <- (found_anchored (catAll l) L s H). apply found_ext. intros b m a. cbn [catAll fold_right]. fold (catAll (l ++ [REnd])).
  rewrite !matches_cat. split; intros (m1 & m2 & E & H1 & H2); exists m1, m2; (split; [exact E|]); (split; [exact H1|]).
  - exact (proj1 (catAll_app l [REnd] _ _ _) H2).
  - exact (proj2 (catAll_app l [REnd] _ _ _) H2).
Qed.

Lemma matchOne_spec e r s : regcomp e = Ok [r] -> (regExpMatchOne e s = Ok true <-> found r s) /\ (regExpMatchOne e s = Ok true \/ regExpMatchOne e s = Ok false).
Proof.
  intros E. unfold regExpMatchOne, regExpNew. rewrite E. cbn [bind altRe]. unfold regExpMatch. rewrite <- regexec_spec. split.
  - split; [intros H; injection H as ->; reflexivity|intros ->; reflexivity].
  - destruct (regexec r s); auto.
Qed.

(** The language is read from the goal *)
Ltac pieces s := revert s; match goal with |- forall s, _ <-> @?P s => intros s; apply (found_pieces _ P s) end.

(** The extensions of compressed files *)
Definition extRe : re :=
  RAlt (catAll (map rChr (txt ".gz"))) (RAlt (catAll (map rChr (txt ".lz4"))) (RAlt (catAll (map rChr (txt ".zst")))
    (RAlt (catAll (map rChr (txt ".xz"))) (catAll (map rChr (txt ".bz2")))))).
Lemma lang_ext_ : lang extRe isExt.
Proof.
  unfold extRe. eapply lang_ext; [repeat apply lang_alt; apply lang_lit|]. intros s. unfold isExt. cbn [In]. intuition auto.
Qed.
Definition hashPieces : list re := [rChr 45; rRepeat (RCls false [(48, 102)]) 40 (Some 40%nat); rRepeat extRe 0 (Some 1%nat)].
Lemma lang_one r L : lang (catAll r) L -> forall q M, lang q M -> lang (catAll (q :: r)) (then_ M L).
Proof. intros H q M Hq. cbn [catAll fold_right]. apply lang_cat; assumption. Qed.
Lemma lang_hash : lang (catAll hashPieces) hashExt.
Proof.
  unfold hashPieces. eapply lang_ext.
  - apply lang_one; [|apply lang_chr]. apply lang_one; [|apply lang_count]. apply lang_one; [apply lang_eps|apply lang_option; apply lang_ext_].
  - intros s. unfold hashExt. split.
    + intros (s1 & s2 & -> & -> & (h & s3 & -> & (H1 & H2) & (x & s4 & -> & Hx & ->))). exists h, x. rewrite app_nil_r. auto.
    + intros (h & x & -> & H1 & H2 & Hx). exists [45], (h ++ x). split; [reflexivity|]. split; [reflexivity|]. exists h, x. split; [reflexivity|].
      split; [auto|]. exists x, []. rewrite app_nil_r. auto.
Qed.

Lemma segment_re : regcomp walSegmentRegExp = Ok [catAll (RBeg :: [rRepeat (RCls false [(48, 70)]) 24 (Some 24%nat)] ++ [REnd])].
Proof. reflexivity. Qed.
Lemma segment_match s : regExpMatchOne walSegmentRegExp s = Ok true <-> length s = 24%nat /\ between 48 70 s.
Proof.
  rewrite (proj1 (matchOne_spec _ _ s segment_re)). pieces s. eapply lang_ext; [apply lang_one; [apply lang_eps|apply lang_count]|].
  intros x. split; [intros (s1 & s2 & -> & H & ->); rewrite app_nil_r; exact H|intros H; exists x, []; rewrite app_nil_r; auto].
Qed.
Lemma dir_re : regcomp walSegmentDirRegExp = Ok [catAll (RBeg :: [rRepeat (RCls false [(48, 70)]) 16 (Some 16%nat)] ++ [REnd])].
Proof. reflexivity. Qed.
Lemma dir_match s : regExpMatchOne walSegmentDirRegExp s = Ok true <-> length s = 16%nat /\ between 48 70 s.
Proof.
  rewrite (proj1 (matchOne_spec _ _ s dir_re)). pieces s. eapply lang_ext; [apply lang_one; [apply lang_eps|apply lang_count]|].
  intros x. split; [intros (s1 & s2 & -> & H & ->); rewrite app_nil_r; exact H|intros H; exists x, []; rewrite app_nil_r; auto].
Qed.
Lemma partial_re : regcomp walSegmentPartialRegExp =
  Ok [catAll (RBeg :: [rRepeat (RCls false [(48, 70)]) 24 (Some 24%nat); rRepeat (catAll (map rChr walPartialExt)) 0 (Some 1%nat)] ++ [REnd])].
Proof. reflexivity. Qed.
Lemma partial_match s : walIsSegment s = Ok true <-> exists w x, s = w ++ x /\ length w = 24%nat /\ between 48 70 w /\ (x = [] \/ x = walPartialExt).
Proof.
  unfold walIsSegment. rewrite (proj1 (matchOne_spec _ _ s partial_re)). pieces s.
  eapply lang_ext; [apply lang_one; [apply lang_one; [apply lang_eps|apply lang_option; apply lang_lit]|apply lang_count]|].
  intros y. split.
  - intros (w & s2 & -> & (H1 & H2) & (x & s3 & -> & Hx & ->)). exists w, x. rewrite app_nil_r. auto.
  - intros (w & x & -> & H1 & H2 & Hx). exists w, x. split; [reflexivity|]. split; [auto|]. exists x, []. rewrite app_nil_r. auto.
Qed.
Lemma file_re : regcomp walSegmentFileRegExp = Ok [catAll (RBeg :: (rRepeat (RCls false [(48, 70)]) 24 (Some 24%nat) :: hashPieces) ++ [REnd])].
Proof. reflexivity. Qed.
Lemma file_match s : regExpMatchOne walSegmentFileRegExp s = Ok true <-> exists w x, s = w ++ x /\ length w = 24%nat /\ between 48 70 w /\ hashExt x.
Proof.
  rewrite (proj1 (matchOne_spec _ _ s file_re)). pieces s. eapply lang_ext; [apply lang_one; [apply lang_hash|apply lang_count]|].
  intros y. unfold then_. split; intros (w & x & -> & H); exists w, x; tauto.
Qed.

(** * Finding one segment *)
Lemma regcomp_anchor p t : forallb literal p = true ->
  regcomp (94 :: p ++ t) = parse (S (length t)) t ([], rev (map rChr p) ++ [RBeg]) [].
Proof.
  intros H. unfold regcomp. change (parse (S (length (94 :: p ++ t))) (94 :: p ++ t) ([], []) []) with (parse (S (length (p ++ t))) (p ++ t) ([], [RBeg]) []).
  rewrite app_length, plus_n_Sm, parse_literals by exact H. reflexivity.
Qed.

Lemma seqRe_rev l : forall b m a, matches (seqRe (rev l)) b m a <-> matches (catAll l) b m a.
Proof.
  induction l as [|r l IH] using rev_ind; intros b m a; [reflexivity|]. rewrite rev_app_distr. cbn [rev app]. rewrite matches_seq_cons, catAll_app, matches_cat.
  split; intros (m1 & m2 & -> & H1 & H2); exists m1, m2; (split; [reflexivity|]); (split; [apply IH; exact H1|]).
  - cbn [catAll fold_right]. apply matches_cat. exists m2, []. rewrite app_nil_r. split; [reflexivity|]. split; [exact H2|constructor].
  - cbn [catAll fold_right] in H2. apply matches_cat in H2 as (n1 & n2 & -> & H2 & H3). apply matches_eps in H3. subst n2. rewrite app_nil_r. exact H2.
Qed.

Definition findTail : str := txt "-[0-f]{40}" ++ compressTypeRegExp ++ txt "{0,1}$".
Lemma find_tail q : parse (S (length findTail)) findTail ([], q) [] = Ok [seqRe (rev (hashPieces ++ [REnd]) ++ q)].
Proof. reflexivity. Qed.
Lemma find_partial_tail q : parse (S (length (walPartialExt ++ findTail))) (walPartialExt ++ findTail) ([], q) [] =
  Ok [seqRe (rev ((rAny :: map rChr (txt "partial")) ++ hashPieces ++ [REnd]) ++ q)].
Proof. reflexivity. Qed.

Lemma find_match seg s : length seg = 24%nat -> forallb literal seg = true -> walIsPartial seg = false ->
  regExpMatchOne (walFindRegExp seg) s = Ok true <-> exists y, s = seg ++ y /\ hashExt y.
Proof.
  intros L F N. assert (E : walFindRegExp seg = 94 :: seg ++ findTail).
  { unfold walFindRegExp. rewrite N, <- L, firstn_all. reflexivity. }
  assert (R : regcomp (walFindRegExp seg) = Ok [seqRe (rev (RBeg :: (map rChr seg ++ hashPieces) ++ [REnd]))]).
  { rewrite E, regcomp_anchor by exact F. rewrite find_tail. f_equal. f_equal. f_equal. cbn [rev].
    rewrite !rev_app_distr, <- !app_assoc. reflexivity. }
  rewrite (proj1 (matchOne_spec _ _ s R)). rewrite (found_ext _ _ s (seqRe_rev _)). pieces s.
  intros b m a. rewrite catAll_app. revert b m a. eapply lang_ext; [apply lang_cat; [apply lang_lit|apply lang_hash]|].
  intros y. split; [intros (s1 & s2 & -> & -> & H); eauto|intros (x & -> & H); exists seg, x; auto].
Qed.
Lemma skipn_len_app {A} (l m : list A) : skipn (length l) (l ++ m) = m.
Proof. rewrite skipn_app, skipn_all, Nat.sub_diag. reflexivity. Qed.
Lemma firstn_len_app {A} (l m : list A) : firstn (length l) (l ++ m) = l.
Proof. rewrite firstn_app, firstn_all, Nat.sub_diag. cbn. apply app_nil_r. Qed.
Lemma partial_is seg : walIsPartial (seg ++ walPartialExt) = true.
Proof.
  unfold walIsPartial. rewrite app_length. replace (length seg + length walPartialExt - length walPartialExt)%nat with (length seg) by lia.
  rewrite skipn_len_app, strEqb_refl, andb_true_r. apply Nat.leb_le. lia.
Qed.
Lemma find_partial_match seg s : length seg = 24%nat -> forallb literal seg = true ->
  regExpMatchOne (walFindRegExp (seg ++ walPartialExt)) s = Ok true <-> exists c y, s = seg ++ c :: txt "partial" ++ y /\ hashExt y.
Proof.
  intros L F. assert (E : walFindRegExp (seg ++ walPartialExt) = 94 :: seg ++ walPartialExt ++ findTail).
  { unfold walFindRegExp. rewrite partial_is, <- L, firstn_len_app. reflexivity. }
  assert (R : regcomp (walFindRegExp (seg ++ walPartialExt)) = Ok [seqRe (rev (RBeg :: (map rChr seg ++ (rAny :: map rChr (txt "partial")) ++ hashPieces) ++ [REnd]))]).
  { rewrite E, regcomp_anchor by exact F. rewrite find_partial_tail. f_equal. f_equal. f_equal. cbn [rev].
    rewrite !rev_app_distr, <- !app_assoc. reflexivity. }
  rewrite (proj1 (matchOne_spec _ _ s R)). rewrite (found_ext _ _ s (seqRe_rev _)). pieces s.
  intros b m a. rewrite catAll_app. revert b m a.
  eapply lang_ext.
  - apply lang_cat; [apply lang_lit|]. cbn [app]. apply lang_one with (M := fun s => exists c, s = [c]); [|apply lang_any].
    intros b m a. rewrite catAll_app. revert b m a. apply lang_cat; [apply lang_lit|apply lang_hash].
  - intros y. split.
    + intros (s1 & s2 & -> & -> & (s3 & s4 & -> & (c & ->) & (s5 & s6 & -> & -> & H))). exists c, s6. auto.
    + intros (c & x & -> & H). exists seg, (c :: txt "partial" ++ x). split; [reflexivity|]. split; [reflexivity|].
      exists [c], (txt "partial" ++ x). split; [reflexivity|]. split; [eauto|]. exists (txt "partial"), x. auto.
Qed.

(** * Backup labels *)
Definition dtPieces : list re := [rRepeat (RCls false [(48, 57)]) 8 (Some 8%nat); rChr 45; rRepeat (RCls false [(48, 57)]) 6 (Some 6%nat)].
Lemma lang_dt : lang (catAll dtPieces) dateTime.
Proof.
  unfold dtPieces. eapply lang_ext.
  - apply lang_one; [|apply lang_count]. apply lang_one; [|apply lang_chr]. apply lang_one; [apply lang_eps|apply lang_count].
  - intros s. unfold dateTime, digits. split.
    + intros (d & s2 & -> & (H1 & H2) & (s3 & s4 & -> & -> & (t & s5 & -> & (H3 & H4) & ->))). exists d, t. rewrite app_nil_r. auto.
    + intros (d & t & -> & H1 & H2 & H3 & H4). exists d, (45 :: t). split; [reflexivity|]. split; [auto|]. exists [45], t. split; [reflexivity|].
      split; [reflexivity|]. exists t, []. rewrite app_nil_r. auto.
Qed.
Definition typeRe (diff incr : bool) : re := if diff && incr then RAlt (catAll [rChr 68]) (catAll [rChr 73]) else if diff then rChr 68 else rChr 73.
Lemma lang_type diff incr : diff || incr = true -> lang (typeRe diff incr) (fun c => diff = true /\ c = txt "D" \/ incr = true /\ c = txt "I").
Proof.
  intros H. unfold typeRe. destruct diff, incr; try discriminate H; cbn [andb].
  - eapply lang_ext; [apply lang_alt; [apply (lang_lit (txt "D"))|apply (lang_lit (txt "I"))]|]. intros s. tauto.
  - eapply lang_ext; [apply lang_chr|]. intros s. split; [auto|intros [[_ E]|[E _]]; [exact E|discriminate]].
  - eapply lang_ext; [apply lang_chr|]. intros s. split; [auto|intros [[E _]|[_ E]]; [discriminate|exact E]].
Qed.
Definition depPieces (diff incr : bool) : list re := rChr 95 :: dtPieces ++ [typeRe diff incr].
Lemma lang_dep diff incr : diff || incr = true ->
  lang (catAll (depPieces diff incr)) (fun s => exists t c, s = txt "_" ++ t ++ c /\ dateTime t /\ (diff = true /\ c = txt "D" \/ incr = true /\ c = txt "I")).
Proof.
  intros H. unfold depPieces. eapply lang_ext.
  - apply lang_one; [|apply lang_chr]. intros b m a. rewrite catAll_app. revert b m a. apply lang_cat; [apply lang_dt|].
    apply lang_one; [apply lang_eps|apply lang_type; exact H].
  - intros s. split.
    + intros (s1 & s2 & -> & -> & (t & s3 & -> & Ht & (c & s4 & -> & Hc & ->))). exists t, c. rewrite app_nil_r. auto.
    + intros (t & c & -> & Ht & Hc). exists [95], (t ++ c). split; [reflexivity|]. split; [reflexivity|]. exists t, c. split; [reflexivity|].
      split; [exact Ht|]. exists c, []. rewrite app_nil_r. auto.
Qed.
Lemma lang_full : lang (catAll (dtPieces ++ [rChr 70])) fullLabel.
Proof.
  intros b m a. rewrite catAll_app. revert b m a. eapply lang_ext; [apply lang_cat; [apply lang_dt|apply lang_one; [apply lang_eps|apply lang_chr]]|].
  intros s. unfold fullLabel. split.
  - intros (t & s2 & -> & Ht & (s3 & s4 & -> & -> & ->)). exists t. auto.
  - intros (t & -> & Ht). exists t, [70]. split; [reflexivity|]. split; [exact Ht|]. exists [70], []. auto.
Qed.

Definition labelPieces (full diff incr : bool) : list re :=
  (dtPieces ++ [rChr 70]) ++
  (if diff || incr then (if full then [rRepeat (catAll (depPieces diff incr)) 0 (Some 1%nat)] else depPieces diff incr) else []).
Lemma label_re full diff incr : full || diff || incr = true ->
  regcomp (backupRegExp full diff incr false) = Ok [catAll (RBeg :: labelPieces full diff incr ++ [REnd])].
Proof. destruct full, diff, incr; try discriminate; intros _; reflexivity. Qed.
Lemma lang_label full diff incr : full || diff || incr = true -> lang (catAll (labelPieces full diff incr)) (fun s => full = true /\ fullLabel s \/ depLabel diff incr s).
Proof.
  intros H.
  unfold labelPieces. intros b m a. rewrite catAll_app. revert b m a. destruct (diff || incr) eqn:D.
  - destruct full.
    + eapply lang_ext; [apply lang_cat; [apply lang_full|apply lang_one; [apply lang_eps|apply lang_option; apply lang_dep; exact D]]|].
      intros x. unfold depLabel. split.
      * intros (f & s2 & -> & Hf & (s3 & s4 & -> & [->|(t & c & -> & Ht & Hc)] & ->)); rewrite ?app_nil_r; [left; auto|right].
        exists f, t, c. auto.
      * intros [[_ Hf]|(f & t & c & -> & Hf & Ht & Hc)].
        -- exists x, []. rewrite app_nil_r. split; [reflexivity|]. split; [exact Hf|]. exists [], []. auto.
        -- exists f, (txt "_" ++ t ++ c). split; [reflexivity|]. split; [exact Hf|]. exists (txt "_" ++ t ++ c), []. rewrite app_nil_r.
           split; [reflexivity|]. split; [right; eauto|reflexivity].
    + eapply lang_ext; [apply lang_cat; [apply lang_full|apply lang_dep; exact D]|].
      intros x. unfold depLabel. split.
      * intros (f & s2 & -> & Hf & (t & c & -> & Ht & Hc)). right. exists f, t, c. auto.
      * intros [[E _]|(f & t & c & -> & Hf & Ht & Hc)]; [discriminate|]. exists f, (txt "_" ++ t ++ c). split; [reflexivity|]. split; [exact Hf|]. eauto.
  - apply orb_false_elim in D as [-> ->]. destruct full; [|discriminate H].
    eapply lang_ext; [apply lang_cat; [apply lang_full|apply lang_eps]|]. intros x. split.
    + intros (f & s2 & -> & Hf & ->). rewrite app_nil_r. auto.
    + intros [[_ Hf]|(f & t & c & _ & _ & _ & [[E _]|[E _]])]; try discriminate E. exists x, []. rewrite app_nil_r. auto.
Qed.
Lemma label_match full diff incr s : full || diff || incr = true ->
  regExpMatchOne (backupRegExp full diff incr false) s = Ok true <-> full = true /\ fullLabel s \/ depLabel diff incr s.
Proof. intros H. rewrite (proj1 (matchOne_spec _ _ s (label_re full diff incr H))). pieces s. exact (lang_label full diff incr H). Qed.
(** The names in the history of backups *)
Lemma history_re full diff incr : full || diff || incr = true ->
  regcomp (backupRegExp full diff incr true ++ txt "\.manifest\.gz$") = Ok [catAll (RBeg :: (labelPieces full diff incr ++ map rChr (txt ".manifest.gz")) ++ [REnd])].
Proof. destruct full, diff, incr; try discriminate; intros _; reflexivity. Qed.
Lemma history_match full diff incr s : full || diff || incr = true ->
  regExpMatchOne (backupRegExp full diff incr true ++ txt "\.manifest\.gz$") s = Ok true <-> exists l, s = l ++ txt ".manifest.gz" /\ (full = true /\ fullLabel l \/ depLabel diff incr l).
Proof.
  intros H. rewrite (proj1 (matchOne_spec _ _ s (history_re full diff incr H))). pieces s. intros b m a. rewrite catAll_app. revert b m a.
  eapply lang_ext; [apply lang_cat; [exact (lang_label full diff incr H) | apply lang_lit]|]. intros x. split; [intros (l & y & -> & Hl & ->); exists l; auto | intros (l & -> & Hl); exists l, (txt ".manifest.gz"); auto].
Qed.
