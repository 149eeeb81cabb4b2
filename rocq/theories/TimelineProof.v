(** Proofs for timelines. *)
From Verif Require Import Base Str ConvertModel NumModel NumSpec NumProof LsnModel LsnSpec LsnProof SpoolModel SpoolSpec SpoolProof TimelineModel TimelineSpec.
From Coq Require Import Sorted.
Open Scope Z_scope.

(** * Trim *)
Lemma trimFront_white a s : Forall white a -> trimFront (a ++ s) = trimFront s.
Proof. induction 1 as [|c a W _ IH]; [reflexivity|]. cbn. apply isTrim_white in W. now rewrite W. Qed.
Lemma trimFront_stop c s : ~ white c -> trimFront (c :: s) = c :: s.
Proof. intros H. cbn. destruct (isTrim c) eqn:E; [apply isTrim_white in E; contradiction|reflexivity]. Qed.
Lemma trim_unique a T b : Forall white a -> Forall white b -> (forall c r, T = c :: r -> ~ white c) -> (forall c r, T = r ++ [c] -> ~ white c) -> strTrim (a ++ T ++ b) = T.
Proof.
  intros Wa Wb F L. unfold strTrim. rewrite trimFront_white by exact Wa. destruct T as [|c T].
  - cbn [app]. rewrite <- (app_nil_r b), trimFront_white by exact Wb. reflexivity.
  - cbn [app]. rewrite trimFront_stop by (eapply F; reflexivity). change (c :: T ++ b) with ((c :: T) ++ b). rewrite rev_app_distr, trimFront_white by (apply Forall_rev; exact Wb).
    destruct (rev (c :: T)) as [|z u] eqn:E; [apply (f_equal (@length Z)) in E; rewrite rev_length in E; discriminate|]. rewrite trimFront_stop.
    + rewrite <- E. apply rev_involutive.
    + apply (L z (rev u)). rewrite <- (rev_involutive (c :: T)), E. reflexivity.
Qed.
Lemma lastNW r : exists r1 b, r = r1 ++ b /\ Forall white b /\ forall c u, r1 = u ++ [c] -> ~ white c.
Proof.
  destruct (trimFront_spec (rev r)) as (a & E & W & N). exists (rev (trimFront (rev r))), (rev a). split; [rewrite <- rev_app_distr, <- E; now rewrite rev_involutive|]. split; [now apply Forall_rev|].
  intros c u H. apply (f_equal (@rev Z)) in H. rewrite rev_involutive, rev_app_distr in H. eapply N. exact H.
Qed.

(** * Number texts *)
Definition plain (c : Z) : Prop := ~ white c /\ c <> 35 /\ c <> 9 /\ c <> 10.
Lemma digit_plain c d : digitIs c d -> plain c.
Proof. unfold plain, white. destruct 1; lia. Qed.
Lemma digits_plain base s v : digitsIs base s v -> Forall plain s /\ s <> [].
Proof.
  induction 1 as [c d Hc Hd|s v c d H (IH & _) Hc Hd]; (split; [|]).
  - constructor; [now apply (digit_plain c d)|constructor].
  - discriminate.
  - apply Forall_app. split; [exact IH|]. constructor; [now apply (digit_plain c d)|constructor].
  - destruct s; discriminate.
Qed.
Lemma unsigned_plain base s v : unsignedText base s v -> Forall plain s /\ s <> [].
Proof.
  intros (sg & p & ds & Hs & Hp & -> & Hd). apply digits_plain in Hd. destruct Hd as (Hd & Hn).
  assert (P : plain 43 /\ plain 48 /\ plain 120 /\ plain 88) by (unfold plain, white; lia). destruct P as (P1 & P2 & P3 & P4). split.
  - apply Forall_app. split; [destruct Hs as [-> | ->]; auto|]. apply Forall_app. split; [|exact Hd]. destruct Hp as [-> |(_ & [-> | ->])]; auto.
  - destruct sg; [|discriminate]. destruct p; [|discriminate]. exact Hn.
Qed.
Lemma lsnText_spec s v : lsnFromStr s = Ok v <-> lsnText s v.
Proof. rewrite lsnFromStr_spec. reflexivity. Qed.
Lemma lsn_plain s v : lsnText s v -> Forall plain s /\ s <> [].
Proof.
  intros (hi & lo & h & l & -> & H1 & _ & H2 & _). apply unsigned_plain in H1, H2. split; [|destruct hi; discriminate]. apply Forall_app. split; [tauto|]. constructor; [unfold plain, white; lia|tauto].
Qed.
Lemma plain_notin c s : Forall plain s -> white c -> ~ In c s.
Proof. intros H W Hi. rewrite Forall_forall in H. destruct (H c Hi). contradiction. Qed.

(** * Lines *)
Lemma splitOn_cons c s p q ps : splitOn c s = p :: q :: ps -> exists r, s = p ++ c :: r /\ ~ In c p /\ splitOn c r = q :: ps.
Proof.
  revert p. induction s as [|x s IH]; intros p H; cbn in H; [discriminate|]. destruct (Z.eqb_spec x c) as [-> |N].
  - injection H as <- H. exists s. auto.
  - destruct (splitOn c s) as [|p' ps'] eqn:E; [now apply splitOn_ne in E|]. injection H as <- ->. destruct (IH p' eq_refl) as (r & -> & N' & E'). exists r. split; [reflexivity|]. split; [|exact E']. intros [H|H]; auto.
Qed.
Lemma line_sound x o : historyLine x = Ok o -> lineIs x o.
Proof.
  unfold historyLine. cbv zeta. destruct (strTrim_spec x) as (a & b & E & Wa & Wb & N1 & N2). destruct (strTrim x) as [|c T] eqn:ET.
  - intros [= <-]. rewrite E. apply li_blank. apply Forall_app. split; auto.
  - destruct (Z.eqb_spec c 35) as [-> |Nc]; [intros [= <-]; rewrite E; now apply li_comment|].
    destruct (splitOn 9 (c :: T)) as [|t [|l ps]] eqn:ES; try discriminate. apply splitOn_cons in ES. destruct ES as (r & EC & Nt & ER).
    destruct (cvtZToUInt 10 t) as [tl|k|] eqn:E1; cbn [bind]; try discriminate. destruct (lsnFromStr l) as [v|k|] eqn:E2; cbn [bind]; try discriminate. intros [= <-].
    apply cvtZToUInt_spec in E1; [|lia]. destruct E1 as (U & B). apply lsnText_spec in E2. rewrite E, EC. rewrite <- app_assoc. cbn [app]. destruct ps as [|q ps].
    + apply splitOn_one in ER. destruct ER as (-> & _). apply li_item; auto.
    + apply splitOn_cons in ER. destruct ER as (r' & -> & _ & _). rewrite <- app_assoc. cbn [app]. apply li_item; auto. right. eauto.
Qed.
Lemma line_complete x o : lineIs x o -> historyLine x = Ok o.
Proof.
  unfold historyLine. cbv zeta. destruct 1 as [l W|a r W|a st sl rest t l W U B L R].
  - assert (E : strTrim l = []). { pose proof (trim_unique l [] [] W (Forall_nil _)) as H. cbn [app] in H. rewrite app_nil_r in H. apply H; [discriminate|intros c [|? ?]; discriminate]. } now rewrite E.
  - destruct (lastNW r) as (r1 & b & -> & Wb & Nb). assert (E : strTrim (a ++ (35 :: r1) ++ b) = 35 :: r1).
    { apply trim_unique; auto.
      - intros c u [= <- _]. unfold white. lia.
      - intros c u H. destruct u as [|z u]; cbn in H; injection H; intros; subst; [unfold white; lia|]. eapply Nb. reflexivity. }
    cbn [app] in E. rewrite E. reflexivity.
  - destruct (unsigned_plain 10 st t U) as (Ps & Ns). destruct (lsn_plain sl l L) as (Pl & Nl).
    destruct st as [|c st]; [congruence|]. assert (Pc : plain c) by now inversion Ps.
    destruct (lastNW rest) as (r1 & b & -> & Wb & Nb).
    assert (R1 : r1 = [] \/ exists r, r1 = 9 :: r). { destruct R as [R|(r & R)]; [|destruct r1 as [|z r1]; [auto|right; exists r1; cbn in R; congruence]]. left. apply Forall_app in R. destruct R as (R & _). destruct r1 as [|z r1]; [reflexivity|]. destruct (@exists_last _ (z :: r1) ltac:(discriminate)) as (u & y & E). elim (Nb y u E). rewrite E in R. apply Forall_app in R. destruct R as (_ & R). now inversion R. }
    assert (E : strTrim (a ++ ((c :: st) ++ 9 :: sl ++ r1) ++ b) = (c :: st) ++ 9 :: sl ++ r1).
    { apply trim_unique; auto.
      - intros z u [= <- _]. apply Pc.
      - intros z u H. destruct R1 as [-> |(r & ->)].
        + rewrite app_nil_r in H. destruct (@exists_last _ sl Nl) as (w & y & Ey). rewrite Ey in H, Pl. change (9 :: w ++ [y]) with ((9 :: w) ++ [y]) in H. rewrite app_assoc in H. apply app_inj_tail in H. destruct H as (_ & <-). apply Forall_app in Pl. destruct Pl as (_ & Pl). inversion Pl as [|? ? Py]; subst. apply Py.
        + destruct (@exists_last _ (9 :: r) ltac:(discriminate)) as (w & y & Ey). rewrite Ey in H. change (9 :: sl ++ w ++ [y]) with ((9 :: sl) ++ w ++ [y]) in H. rewrite !app_assoc in H. apply app_inj_tail in H. destruct H as (_ & <-). eapply Nb. exact Ey. }
    replace (a ++ (c :: st) ++ 9 :: sl ++ r1 ++ b) with (a ++ ((c :: st) ++ 9 :: sl ++ r1) ++ b) by (rewrite <- !app_assoc; cbn [app]; rewrite <- !app_assoc; reflexivity).
    rewrite E. change ((c :: st) ++ 9 :: sl ++ r1) with (c :: st ++ 9 :: sl ++ r1) at 1. cbv iota. destruct (Z.eqb_spec c 35) as [-> |_]; [destruct Pc as (_ & Pc & _); congruence|].
    assert (W9 : white 9) by (unfold white; auto). rewrite splitOn_app by (now apply plain_notin).
    assert (ES : exists ps, splitOn 9 (sl ++ r1) = sl :: ps). { destruct R1 as [-> |(r & ->)]; [rewrite app_nil_r; exists []; apply splitOn_nosep; now apply plain_notin|]. exists (splitOn 9 r). apply splitOn_app. now apply plain_notin. }
    destruct ES as (ps & ->). rewrite (proj2 (cvtZToUInt_spec 10 ltac:(lia) (c :: st) t)) by auto. cbn [bind]. rewrite (proj2 (lsnText_spec sl l) L). reflexivity.
Qed.
Lemma line_spec x o : historyLine x = Ok o <-> lineIs x o. Proof. split; [apply line_sound|apply line_complete]. Qed.
Lemma lines_spec xs : forall l, historyLines xs = Ok l <-> linesAre xs l.
Proof.
  induction xs as [|x xs IH]; intros l; cbn [historyLines].
  - split; [intros [= <-]; constructor|inversion 1; reflexivity].
  - split.
    + destruct (historyLine x) as [o|k|] eqn:E; cbn [bind]; try discriminate. destruct (historyLines xs) as [l'|k|] eqn:E'; cbn [bind]; try discriminate. intros [= <-]. apply line_spec in E. destruct o as [i|]; constructor; auto; now apply IH.
    + inversion 1 as [|? ? l' H1 H2|? i ? l' H1 H2]; subst; apply line_spec in H1; rewrite H1; cbn [bind]; apply IH in H2; now rewrite H2.
Qed.
Lemma split_join lines : lines <> [] -> Forall (fun l => ~ In 10 l) lines -> splitOn 10 (joinNl lines) = lines.
Proof.
  induction lines as [|x r IH]; intros N F; [congruence|]. inversion F as [|? ? Fx Fr]; subst. cbn [joinNl]. destruct r as [|y r]; [now apply splitOn_nosep|]. rewrite splitOn_app by exact Fx. f_equal. apply IH; [discriminate|exact Fr].
Qed.
Lemma join_split text : exists lines, lines = splitOn 10 text /\ lines <> [] /\ Forall (fun l => ~ In 10 l) lines /\ text = joinNl lines.
Proof.
  exists (splitOn 10 text). split; [reflexivity|]. split; [apply splitOn_ne|]. induction text as [|c s (F & E)]; cbn; [split; [constructor; auto|reflexivity]|].
  pose proof (splitOn_ne 10 s) as NE. destruct (Z.eqb_spec c 10) as [-> |N].
  - split; [constructor; auto|]. cbn [joinNl]. destruct (splitOn 10 s) as [|p ps]; [congruence|]. cbn [app]. now rewrite <- E.
  - destruct (splitOn 10 s) as [|p ps]; [congruence|]. inversion F as [|? ? Fp Fs]; subst. split; [constructor; [intros [H|H]; auto|exact Fs]|]. cbn [joinNl] in *. destruct ps; cbn [app]; congruence.
Qed.
Lemma parse_spec text h : historyParse text = Ok h <-> spells text h.
Proof.
  unfold historyParse, spells. split.
  - intros H. destruct (join_split text) as (lines & E & N & F & EJ). exists lines. rewrite <- E in H. apply lines_spec in H. auto.
  - intros (lines & N & F & -> & H). rewrite split_join by auto. now apply lines_spec.
Qed.
Lemma line_kind x k : historyLine x <> UB /\ (historyLine x = Err k -> k = EFormat).
Proof.
  unfold historyLine. cbv zeta. destruct (strTrim x) as [|c T]; [split; discriminate|]. destruct (c =? 35); [split; discriminate|]. destruct (splitOn 9 (c :: T)) as [|t [|l ps]]; try (split; [discriminate|intros [= <-]; reflexivity]).
  assert (H1 : forall s k, cvtZToUInt 10 s <> UB /\ (cvtZToUInt 10 s = Err k -> k = EFormat)).
  { intros s k'. unfold cvtZToUInt, zToUInt64Internal. destruct (strtoull 10 s) as [[v e] r]. destruct (zValid e s r); cbn [bind]; [|split; [discriminate|intros [= <-]; reflexivity]]. destruct (_ || _); (split; [discriminate|]); [intros [= <-]; reflexivity|discriminate]. }
  assert (H2 : forall s k, cvtZToUInt64 16 s <> UB /\ (cvtZToUInt64 16 s = Err k -> k = EFormat)).
  { intros s k'. unfold cvtZToUInt64, zToUInt64Internal. destruct (strtoull 16 s) as [[v e] r]. destruct (zValid e s r); cbn [bind]; [|split; [discriminate|intros [= <-]; reflexivity]]. destruct (startsMinus s); (split; [discriminate|]); [intros [= <-]; reflexivity|discriminate]. }
  assert (H3 : forall s k, lsnFromStr s <> UB /\ (lsnFromStr s = Err k -> k = EFormat)).
  { intros s k'. unfold lsnFromStr. destruct (splitOn 47 s) as [|hi [|lo [|]]]; try (split; [discriminate|intros [= <-]; reflexivity]). destruct (H2 hi k') as (A & B). destruct (cvtZToUInt64 16 hi) as [h|k0|]; cbn [bind]; [|split; [discriminate|exact B]|congruence]. destruct (H2 lo k') as (A' & B'). destruct (cvtZToUInt64 16 lo) as [h'|k0|]; cbn [bind]; [split; discriminate|split; [discriminate|exact B']|congruence]. }
  destruct (H1 t k) as (A & B). destruct (cvtZToUInt 10 t) as [tl|k0|]; cbn [bind]; [|split; [discriminate|intros [= <-]; now apply B]|congruence].
  destruct (H3 l k) as (A' & B'). destruct (lsnFromStr l) as [tl'|k0|]; cbn [bind]; [split; discriminate|split; [discriminate|intros [= <-]; now apply B']|congruence].
Qed.
Lemma parse_kind text : historyParse text <> UB.
Proof.
  unfold historyParse. induction (splitOn 10 text) as [|x xs IH]; cbn [historyLines]; [discriminate|]. destruct (line_kind x EFormat) as (A & _). destruct (historyLine x); cbn [bind]; [|discriminate|congruence]. destruct (historyLines xs); cbn [bind]; [discriminate|discriminate|congruence].
Qed.
Lemma load_spec read t h : historyLoad read t = Ok h <-> exists text, read t = Ok text /\ spells text h.
Proof.
  unfold historyLoad. split.
  - destruct (read t) as [text|k|]; cbn [bind]; try discriminate. destruct (historyParse text) as [l|k|] eqn:E; try discriminate. intros [= <-]. exists text. split; [reflexivity|]. now apply parse_spec.
  - intros (text & -> & H). apply parse_spec in H. cbn [bind]. now rewrite H.
Qed.

(** * Families *)
Lemma history_leaves p t h : historyOf p t h -> forall a s, In (a, s) h <-> leaves p a s t.
Proof.
  induction 1 as [t E|t q x h E H IH]; intros a s.
  - split; [intros []|]. destruct 1; congruence.
  - rewrite in_app_iff, IH. split.
    + intros [L|[[= -> ->]|[]]]; [now apply (lv_up p a s t q x)|now apply lv_here].
    + destruct 1 as [t E'|t q' x' E' L]; rewrite E in E'; injection E' as <- <-; [right; now left|now left].
Qed.
Lemma historyHas_spec b lsn h : historyHas b lsn h = true <-> exists s, In (b, s) h /\ lsn < s.
Proof.
  unfold historyHas. rewrite existsb_exists. split.
  - intros ([a s] & H & E). cbn in E. apply andb_prop in E. destruct E as (E1 & E2). apply Z.eqb_eq in E1. apply Z.ltb_lt in E2. subst. eauto.
  - intros (s & H & L). exists (b, s). split; [exact H|]. cbn. rewrite Z.eqb_refl. now apply Z.ltb_lt.
Qed.
Lemma forkedAt_spec b h : match forkedAt b h with Some s => In (b, s) h | None => forall s, ~ In (b, s) h end.
Proof.
  unfold forkedAt. assert (G : forall h r, match fold_left (fun r i => if fst i =? b then Some (snd i) else r) h r with
    | Some s => In (b, s) h \/ r = Some s | None => r = None /\ forall s : Z, ~ In (b, s) h end).
  { clear h. induction h as [|[a s] h IH]; intros r; cbn [fold_left]; [destruct r; [now right|split; [reflexivity|intros s []]]|]. cbn [fst snd]. specialize (IH (if a =? b then Some s else r)).
    destruct (fold_left _ h _) as [s'|].
    - destruct IH as [H|H]; [left; now right|]. destruct (Z.eqb_spec a b) as [-> |]; [injection H as ->; left; now left|now right].
    - destruct IH as (H & N). destruct (Z.eqb_spec a b) as [-> |Na]; [discriminate|]. split; [exact H|]. intros s' [[= -> _]|Hs]; [congruence|exact (N s' Hs)]. }
  specialize (G h None). set (fl := fold_left (fun (r : option Z) (i : Z * Z) => if fst i =? b then Some (snd i) else r) h None) in *. change (match fl with Some s => In (b, s) h | None => forall s, ~ In (b, s) h end). destruct fl as [s|]; [destruct G as [G|G]; [exact G|discriminate]|apply G].
Qed.
Lemma target_family p read b lsn t text h : read t = Ok text -> spells text h -> historyOf p t h -> t <> b ->
  exists v, verifyTarget read b lsn t = Ok v /\ v <> BadTarget /\ (v = Accept <-> exists s, leaves p b s t /\ lsn < s) /\
    (v = NotInHistory <-> forall s, ~ leaves p b s t) /\ (forall s, v = Forked s -> leaves p b s t /\ s <= lsn).
Proof.
  intros R S H N. unfold verifyTarget. destruct (Z.eqb_spec t b) as [E|_]; [contradiction|]. rewrite (proj2 (load_spec read t h) (ex_intro _ text (conj R S))). cbn [bind].
  pose proof (history_leaves p t h H b) as HL. pose proof (historyHas_spec b lsn h) as HH. pose proof (forkedAt_spec b h) as HF. destruct (historyHas b lsn h).
  - exists Accept. split; [reflexivity|]. split; [discriminate|]. destruct (proj1 HH eq_refl) as (s & Hs & L). apply HL in Hs. split; [split; [eauto|auto]|]. split; [|discriminate]. split; [discriminate|]. intros X. elim (X s Hs).
  - assert (NH : forall s, leaves p b s t -> s <= lsn). { intros s Hs. apply HL in Hs. destruct (Z.le_gt_cases s lsn) as [?|L]; [assumption|]. assert (false = true) by (apply HH; eauto). discriminate. }
    destruct (forkedAt b h) as [s|].
    + exists (Forked s). apply HL in HF. split; [reflexivity|]. split; [discriminate|]. split; [split; [discriminate|intros (s' & Hs' & L); specialize (NH s' Hs'); lia]|]. split; [split; [discriminate|intros X; elim (X s HF)]|]. intros s' [= <-]. auto.
    + exists NotInHistory. split; [reflexivity|]. split; [discriminate|]. split; [split; [discriminate|intros (s' & Hs' & L); specialize (NH s' Hs'); lia]|]. split; [split; [|reflexivity]|discriminate]. intros _ s Hs. apply HL in Hs. exact (HF s Hs).
Qed.

(** * Latest *)
Lemma histHere_spec s : histHere s = true <-> exists m b, s = m ++ [46;104;105;115;116;111;114;121] ++ b /\ length m = 8%nat /\ Forall (fun c => 48 <= c <= 70) m.
Proof.
  unfold histHere. rewrite !andb_true_iff, Nat.leb_le, strEqb_eq, forallb_forall. split.
  - intros ((L & F) & E). exists (firstn 8 s), (skipn 8 (skipn 8 s)). split; [change [46;104;105;115;116;111;114;121] with histSuffix; rewrite <- E, firstn_skipn, firstn_skipn; reflexivity|]. split; [rewrite firstn_length; lia|]. apply Forall_forall. intros c Hc. specialize (F c Hc). apply andb_prop in F. destruct F as (F1 & F2). apply Z.leb_le in F1, F2. lia.
  - intros (m & b & -> & L & F). rewrite app_length, firstn_app, skipn_app, L, Nat.sub_diag, firstn_all2, skipn_all2 by lia. cbn [firstn skipn app]. rewrite app_nil_r. split; [split; [lia|]|reflexivity]. intros c Hc. rewrite Forall_forall in F. specialize (F c Hc). apply andb_true_intro. split; apply Z.leb_le; lia.
Qed.
Lemma histExpression_spec s : histExpression s = true <-> histLike s.
Proof.
  unfold histLike. induction s as [|c s IH].
  - cbn. split; [discriminate|]. intros (a & m & b & E & _). destruct a; [destruct m; discriminate|discriminate].
  - cbn [histExpression]. rewrite orb_true_iff, histHere_spec, IH. split.
    + intros [(m & b & E & L & F)|(a & m & b & -> & L & F)]; [exists [], m, b; auto|exists (c :: a), m, b; auto].
    + intros (a & m & b & E & L & F). destruct a as [|x a]; [left; exists m, b; auto|right; exists a, m, b; injection E as <- E; auto].
Qed.
Lemma historyName_like n s : historyName n s -> histLike s.
Proof.
  intros (d & (L & U & _) & ->). exists [], d, []. rewrite app_nil_r. split; [reflexivity|]. split; [exact L|]. revert U. apply Forall_impl. unfold upperHex. lia.
Qed.
Lemma historyName_eq n s : historyName n s -> 0 <= n < two32 /\ s = hex8 n ++ histSuffix.
Proof. intros (d & H & ->). pose proof (hex8Is_range d n H) as R. split; [exact R|]. rewrite hex8_fixed by exact R. now rewrite (hex8Is_eq d n H). Qed.
Lemma latest_spec names current : (forall s, In s names -> histLike s -> exists n, historyName n s) ->
  exists t, timelineLatest names current = Ok t /\ newestTimeline names current t.
Proof.
  intros HN. unfold timelineLatest, newestTimeline. pose proof (strLstSortDesc_sorted (filter histExpression names)) as HS. pose proof (strLstSortDesc_in (filter histExpression names)) as HI.
  assert (IN : forall s, In s (strLstSortDesc (filter histExpression names)) <-> In s names /\ histLike s) by (intros s; rewrite HI, filter_In, histExpression_spec; reflexivity). clear HI.
  destruct (strLstSortDesc (filter histExpression names)) as [|f r].
  - exists current. split; [reflexivity|]. split; [now left|]. split; [lia|]. intros s n Hs Hn. assert (In s []) by (apply IN; split; [exact Hs|now apply (historyName_like n)]). contradiction.
  - destruct (proj1 (IN f) (or_introl eq_refl)) as (Hf & Lf). destruct (HN f Hf Lf) as (n & Nf). destruct (historyName_eq n f Nf) as (R & Ef).
    assert (EC : cvtZToUInt 16 (firstn 8 f) = Ok n).
    { rewrite Ef. pose proof (hex8_length n R) as L8. rewrite firstn_app, L8, Nat.sub_diag, firstn_O, app_nil_r, firstn_all2 by lia. apply cvtZToUInt_spec; [lia|]. split; [|lia]. destruct (hex8_is n R) as (_ & _ & Hd). now apply digits_unsigned. }
    rewrite EC. cbn [bind].
    assert (M : forall s m, In s names -> historyName m s -> m <= n).
    { intros s m Hs Hm. destruct (historyName_eq m s Hm) as (Rm & Em). destruct (Z.le_gt_cases m n) as [?|G]; [assumption|exfalso].
      assert (LE : sle s f). { destruct (proj2 (IN s) (conj Hs (historyName_like m s Hm))) as [<-|Hr]; [apply sle_refl|]. inversion HS as [|? ? _ HF]; subst. rewrite Forall_forall in HF. now apply HF. }
      apply sle_not_lt in LE. apply LE. rewrite Ef, Em. apply slt_app_len; [now rewrite !hex8_length by lia|]. apply hex8_slt; lia. }
    destruct (Z.ltb_spec current n).
    + exists n. split; [reflexivity|]. split; [right; eauto|]. split; [lia|exact M].
    + exists current. split; [reflexivity|]. split; [now left|]. split; [lia|]. intros s m Hs Hm. specialize (M s m Hs Hm). lia.
Qed.
Lemma newest_unique names current t t' : newestTimeline names current t -> newestTimeline names current t' -> t = t'.
Proof.
  intros (A & B & C) (A' & B' & C'). apply Z.le_antisymm.
  - destruct A as [-> |(s & Hs & Hn)]; [exact B'|eauto].
  - destruct A' as [-> |(s & Hs & Hn)]; [exact B|eauto].
Qed.
Lemma number_spec s t : targetNumber s = Ok t <-> numberTarget s t.
Proof.
  unfold targetNumber, numberTarget. change (2 ^ 32) with two32. destruct (strEqb (firstn 2 s) [48;120]) eqn:E.
  - apply strEqb_eq in E. destruct s as [|a [|b s]]; try discriminate E. cbn [firstn] in E. injection E as -> ->. cbn [skipn]. rewrite cvtZToUInt_spec by lia. split.
    + intros (U & B). split; [exact B|]. left. eauto.
    + intros (B & [(r & [= <-] & U)|(N & _)]); [auto|]. elim (N s eq_refl).
  - assert (N : forall r, s <> 48 :: 120 :: r). { intros r ->. cbn [firstn] in E. rewrite strEqb_refl in E. discriminate. } rewrite cvtZToUInt_spec by lia. split.
    + intros (U & B). split; [exact B|]. right. auto.
    + intros (B & [(r & -> & _)|(_ & U)]); [elim (N r eq_refl)|auto].
Qed.
Lemma number_kind s : targetNumber s <> UB.
Proof.
  assert (H1 : forall b s, cvtZToUInt b s <> UB).
  { intros b x. unfold cvtZToUInt, zToUInt64Internal. destruct (strtoull b x) as [[v e] r]. destruct (zValid e x r); cbn [bind]; [|discriminate]. destruct (_ || _); discriminate. }
  unfold targetNumber. destruct (strEqb _ _); apply H1.
Qed.
