(** What the expressions of selective restore match. *)
From Coq Require Import String.
From Verif Require Import Base Str ConvertModel NumModel NumSpec NumProof ArchiveIdModel ArchiveIdProof RegModel RegSpec RegNameModel RegProof RegProof2 RegProof3 ManifestPackModel ManifestModel LinkCheckModel SpoolModel SelectModel SelectSpec.
Open Scope Z_scope.
Open Scope list_scope.

(** * Patterns: literal characters and dots *)
Definition patChar (c : Z) : bool := literal c || (c =? 46).
Definition patRe (c : Z) : re := if c =? 46 then rAny else rChr c.
Lemma parse_pat fuel c t cur stack : patChar c = true -> parse (S fuel) (c :: t) cur stack = parse fuel t (addPiece (patRe c) cur) stack.
Proof.
  unfold patChar, patRe. destruct (c =? 46) eqn:E.
  - intros _. apply Z.eqb_eq in E. subst c. reflexivity.
  - rewrite orb_false_r. apply parse_literal.
Qed.
Lemma parse_pats p : forall fuel t cur stack, forallb patChar p = true ->
  parse (length p + fuel) (p ++ t) cur stack = parse fuel t (fst cur, rev (map patRe p) ++ snd cur) stack.
Proof.
  induction p as [| c p IH]; intros fuel t cur stack H.
  - destruct cur; reflexivity.
  - cbn [forallb] in H. apply andb_prop in H. destruct H as [H1 H2]. cbn [length app]. change (S (length p) + fuel)%nat with (S (length p + fuel)).
    rewrite parse_pat by exact H1. rewrite IH by exact H2. cbn [addPiece fst snd map rev]. rewrite <- app_assoc. reflexivity.
Qed.
Lemma lang_pat c : lang (patRe c) (fun s => exists x, s = [x] /\ (c = x \/ c = 46)).
Proof.
  unfold patRe. destruct (Z.eqb_spec c 46) as [-> | N].
  - eapply lang_ext; [apply lang_any|]. intros s. split; intros (x & H); exists x; intuition.
  - eapply lang_ext; [apply lang_chr|]. intros s. split; [intros ->; eauto|]. intros (x & -> & [-> | E]); [reflexivity | contradiction].
Qed.
Lemma lang_pats p : lang (catAll (map patRe p)) (fits p).
Proof.
  induction p as [| c p IH]; cbn [map catAll fold_right].
  - eapply lang_ext; [apply lang_eps|]. intros s. split; [intros ->; constructor | inversion 1; reflexivity].
  - eapply lang_ext; [apply lang_cat; [apply lang_pat | exact IH]|]. intros s. split.
    + intros (s1 & s2 & -> & (x & -> & H) & F). constructor; assumption.
    + intros H. inversion H as [| ? y ? l' H1 H2]; subst. exists [y], l'. split; [reflexivity|]. split; [eauto | exact H2].
Qed.
Lemma fits_literal p t : forallb literal p = true -> fits p t <-> t = p.
Proof.
  intros L. split.
  - induction 1 as [| a b p' t' H _ IH]; [reflexivity|]. cbn [forallb] in L. apply andb_prop in L. destruct L as [L1 L2]. destruct H as [-> | ->]; [now rewrite IH | discriminate].
  - intros ->. clear L. induction p; constructor; auto.
Qed.
Lemma fits_app p q t : fits (p ++ q) t <-> exists a b, t = a ++ b /\ fits p a /\ fits q b.
Proof.
  split.
  - intros H. apply Forall2_app_inv_l in H. destruct H as (a & b & H1 & H2 & ->). eauto.
  - intros (a & b & -> & H1 & H2). apply Forall2_app; assumption.
Qed.

(** * Anchored at the start *)
Lemma found_start l L s : lang (catAll l) L -> found (catAll (RBeg :: l)) s <-> exists m a, s = m ++ a /\ L m.
Proof.
  intros H. unfold found. cbn [catAll fold_right]. split.
  - intros (b & m & a & -> & M). apply matches_cat in M. destruct M as (m1 & m2 & -> & M1 & M2). apply matches_beg in M1. destruct M1 as [-> ->].
    cbn [app]. exists m2, a. split; [reflexivity|]. now apply (H [] m2 a) in M2.
  - intros (m & a & -> & Hm). exists [], m, a. split; [reflexivity|]. apply matches_cat. exists [], m. split; [reflexivity|]. split; [apply matches_beg; auto|]. now apply H.
Qed.
Lemma lang_plus lo hi : lang (RCat (RCls false [(lo, hi)]) (RStar (RCls false [(lo, hi)]))) (fun s => s <> [] /\ between lo hi s).
Proof.
  assert (HS : lang (RStar (RCls false [(lo, hi)])) (between lo hi)).
  { intros b m a. split.
    - intros M. remember (RStar (RCls false [(lo, hi)])) as r eqn:E. induction M; inversion E; subst; [intros c []|].
      apply matches_range in M1. destruct M1 as (c & -> & Hc). intros x [<- | Hx]; [exact Hc | apply IHM2; auto].
    - revert b. induction m as [| c m IH]; intros b Hm; [constructor|]. change (c :: m) with ([c] ++ m). constructor.
      + apply matches_range. exists c. split; [reflexivity | apply Hm; now left].
      + apply IH. intros x Hx. apply Hm. now right. }
  intros b m a. rewrite matches_cat. split.
  - intros (m1 & m2 & -> & M1 & M2). apply matches_range in M1. destruct M1 as (c & -> & Hc). apply HS in M2. split; [discriminate|].
    intros x [<- | Hx]; [exact Hc | apply M2, Hx].
  - intros [N Hm]. destruct m as [| c m]; [contradiction|]. exists [c], m. split; [reflexivity|]. split.
    + apply matches_range. exists c. split; [reflexivity | apply Hm; now left].
    + apply HS. intros x Hx. apply Hm. now right.
Qed.

Definition rDigits : re := RCat (RCls false [(48, 57)]) (RStar (RCls false [(48, 57)])).
Lemma lang_digits : lang rDigits isId.
Proof. apply lang_plus. Qed.

Lemma lang_catApp l1 l2 L1 L2 : lang (catAll l1) L1 -> lang (catAll l2) L2 -> lang (catAll (l1 ++ l2)) (then_ L1 L2).
Proof. intros H1 H2 b m a. rewrite catAll_app. apply lang_cat; assumption. Qed.

(** * The version files *)
Lemma base_re : regExpNew baseExp = Ok (catAll (RBeg :: map rChr (txt "pg_data/base/") ++ [rDigits] ++ map rChr (txt "/PG_VERSION"))).
Proof. reflexivity. Qed.
Lemma base_match r f : regExpNew baseExp = Ok r ->
  regExpMatch r f = true <-> exists d x, isId d /\ f = txt "pg_data/base/" ++ d ++ txt "/PG_VERSION" ++ x.
Proof.
  rewrite base_re. intros E. injection E as <-. unfold regExpMatch. rewrite regexec_spec.
  rewrite (found_start _ _ f (lang_catApp _ _ _ _ (lang_lit (txt "pg_data/base/")) (lang_catApp [rDigits] _ _ _ (lang_one [] _ lang_eps _ _ lang_digits) (lang_lit (txt "/PG_VERSION"))))).
  split.
  - intros (m & a & -> & (s1 & s2 & -> & -> & (s3 & s4 & -> & (d & e & -> & Hd & ->) & ->))). exists d, a. split; [exact Hd|]. rewrite app_nil_r, <- !app_assoc. reflexivity.
  - intros (d & x & Hd & ->). exists (txt "pg_data/base/" ++ d ++ txt "/PG_VERSION"), x. split; [rewrite <- !app_assoc; reflexivity|].
    exists (txt "pg_data/base/"), (d ++ txt "/PG_VERSION"). split; [reflexivity|]. split; [reflexivity|]. exists d, (txt "/PG_VERSION"). split; [reflexivity|]. split; [| reflexivity].
    exists d, []. rewrite app_nil_r. split; [reflexivity|]. split; [exact Hd | reflexivity].
Qed.

(** The tablespace id *)
Lemma digit_literal s v : digitsIs 10 s v -> forallb literal s = true.
Proof.
  intros H. apply digits_chars in H. destruct H as [_ H]. apply forallb_forall. intros c Hc. specialize (H c Hc). unfold ArchiveIdModel.isDigit in H. apply andb_prop in H.
  assert (R : 48 <= c <= 57) by lia. unfold literal. change cBar with 124; change cOpen with 40; change cClose with 41; change cStar with 42; change cPlus with 43; change cQuest with 63; change cBrace with 123;
    change cBrack with 91; change cDot with 46; change cCaret with 94; change cDollar with 36; change cBack with 92.
  apply negb_true_iff. repeat apply orb_false_intro; apply Z.eqb_neq; lia.
Qed.
Lemma uint_is n : 0 <= n < 2 ^ 32 -> digitsIs 10 (cvtUIntToZ n) n.
Proof. intros H. apply numText_is; unfold two64; lia. Qed.
Lemma pat_lits s : forallb literal s = true -> forallb patChar s = true.
Proof. rewrite !forallb_forall. intros H c Hc. unfold patChar. now rewrite (H c Hc). Qed.
Lemma uint_pat n : 0 <= n < 2 ^ 32 -> forallb literal (cvtUIntToZ n) = true.
Proof. intros H. eapply digit_literal, uint_is, H. Qed.
Lemma tid_pat v cat : 0 <= v < 2 ^ 32 -> 0 <= cat < 2 ^ 32 -> forallb patChar (pgTablespaceId v cat) = true.
Proof.
  intros Hv Hc.
  assert (H1 : 0 <= v / 10000 < 2 ^ 32) by (split; [apply Z.div_pos; lia | apply Z.div_lt_upper_bound; lia]).
  assert (H2 : 0 <= v mod 10000 / 100 < 2 ^ 32).
  { assert (0 <= v mod 10000 < 10000) by (apply Z.mod_pos_bound; lia). split; [apply Z.div_pos; lia | apply Z.div_lt_upper_bound; lia]. }
  assert (HV : forallb patChar (pgVersionToStr v) = true).
  { unfold pgVersionToStr. destruct (100000 <=? v); [exact (pat_lits _ (uint_pat _ H1))|].
    rewrite !forallb_app. rewrite (pat_lits _ (uint_pat _ H1)), (pat_lits _ (uint_pat _ H2)). reflexivity. }
  unfold pgTablespaceId. rewrite !forallb_app, (pat_lits _ (uint_pat cat Hc)), HV. reflexivity.
Qed.
Lemma tid_literal v cat : 100000 <= v < 2 ^ 32 -> 0 <= cat < 2 ^ 32 -> forallb literal (pgTablespaceId v cat) = true.
Proof.
  intros Hv Hc.
  assert (HV : forallb literal (pgVersionToStr v) = true).
  { unfold pgVersionToStr. destruct (Z.leb_spec 100000 v); [| lia]. apply uint_pat. split; [apply Z.div_pos; lia | apply Z.div_lt_upper_bound; lia]. }
  unfold pgTablespaceId. rewrite !forallb_app, (uint_pat cat Hc), HV. reflexivity.
Qed.

Definition tsHead : str := txt "^pg_tblspc/[0-9]+/".
Definition tsTail : str := txt "/[0-9]+/PG_VERSION".
Definition tsPieces (tid : str) : list re :=
  map rChr (txt "pg_tblspc/") ++ [rDigits] ++ map rChr (txt "/") ++ map patRe tid ++ map rChr (txt "/") ++ [rDigits] ++ map rChr (txt "/PG_VERSION").
Lemma ts_head fuel t : parse (length tsHead + fuel) (tsHead ++ t) ([], []) [] = parse (4 + fuel) t ([], rev (RBeg :: map rChr (txt "pg_tblspc/") ++ [rDigits] ++ map rChr (txt "/"))) [].
Proof. reflexivity. Qed.
Lemma ts_tail fuel q : parse (length tsTail + S fuel) tsTail ([], q) [] = Ok [seqRe (rev (map rChr (txt "/") ++ [rDigits] ++ map rChr (txt "/PG_VERSION")) ++ q)].
Proof. reflexivity. Qed.
Lemma ts_re tid : forallb patChar tid = true -> regcomp (tablespaceExp tid) = Ok [seqRe (rev (RBeg :: tsPieces tid))].
Proof.
  intros H. unfold regcomp, tablespaceExp. fold tsHead tsTail. rewrite !app_length.
  replace (S (length tsHead + (length tid + length tsTail)))%nat with (length tsHead + (length tid + (length tsTail + 1)))%nat by lia.
  rewrite ts_head. replace (4 + (length tid + (length tsTail + 1)))%nat with (length tid + (length tsTail + 5))%nat by lia.
  rewrite parse_pats by exact H. rewrite ts_tail. cbn [fst snd]. do 3 f_equal. unfold tsPieces.
  change (RBeg :: map rChr (txt "pg_tblspc/") ++ [rDigits] ++ map rChr (txt "/") ++ map patRe tid ++ map rChr (txt "/") ++ [rDigits] ++ map rChr (txt "/PG_VERSION"))
    with ((RBeg :: map rChr (txt "pg_tblspc/") ++ [rDigits] ++ map rChr (txt "/")) ++ map patRe tid ++ (map rChr (txt "/") ++ [rDigits] ++ map rChr (txt "/PG_VERSION"))).
  rewrite (rev_app_distr (RBeg :: map rChr (txt "pg_tblspc/") ++ [rDigits] ++ map rChr (txt "/"))), (rev_app_distr (map patRe tid)).
  rewrite <- (app_assoc (rev (map rChr (txt "/") ++ [rDigits] ++ map rChr (txt "/PG_VERSION")))). reflexivity.
Qed.
Lemma ts_match tid r f : forallb patChar tid = true -> regExpNew (tablespaceExp tid) = Ok r ->
  regExpMatch r f = true <-> exists o t d x, isId o /\ fits tid t /\ isId d /\ f = txt "pg_tblspc/" ++ o ++ txt "/" ++ t ++ txt "/" ++ d ++ txt "/PG_VERSION" ++ x.
Proof.
  intros HT. unfold regExpNew. rewrite (ts_re tid HT). cbn [bind altRe]. intros E.
  assert (E2 : r = seqRe (rev (RBeg :: tsPieces tid))) by congruence. rewrite E2. unfold regExpMatch. rewrite regexec_spec.
  rewrite (found_ext _ (catAll (RBeg :: tsPieces tid)) f) by (intros; apply seqRe_rev).
  assert (D : lang (catAll [rDigits]) (then_ isId (fun s => s = []))) by exact (lang_one [] _ lang_eps _ _ lang_digits).
  unfold tsPieces.
  rewrite (found_start _ _ f (lang_catApp _ _ _ _ (lang_lit (txt "pg_tblspc/")) (lang_catApp _ _ _ _ D (lang_catApp _ _ _ _ (lang_lit (txt "/"))
    (lang_catApp _ _ _ _ (lang_pats tid) (lang_catApp _ _ _ _ (lang_lit (txt "/")) (lang_catApp _ _ _ _ D (lang_lit (txt "/PG_VERSION"))))))))).
  split.
  - intros (m & a & -> & (s1 & s2 & -> & -> & (s3 & s4 & -> & (o & e & -> & Ho & ->) & (s5 & s6 & -> & -> & (t & s8 & -> & Ht & (s9 & s10 & -> & -> & (s11 & s12 & -> & (d & e2 & -> & Hd & ->) & ->))))))).
    exists o, t, d, a. split; [exact Ho|]. split; [exact Ht|]. split; [exact Hd|]. rewrite !app_nil_r, <- !app_assoc. reflexivity.
  - intros (o & t & d & x & Ho & Ht & Hd & ->).
    exists (txt "pg_tblspc/" ++ o ++ txt "/" ++ t ++ txt "/" ++ d ++ txt "/PG_VERSION"), x. split; [rewrite <- !app_assoc; reflexivity|].
    do 2 eexists. split; [reflexivity|]. split; [reflexivity|].
    exists o. eexists. split; [reflexivity|]. split; [exists o, []; rewrite app_nil_r; auto|].
    do 2 eexists. split; [reflexivity|]. split; [reflexivity|].
    exists t. eexists. split; [reflexivity|]. split; [exact Ht|].
    do 2 eexists. split; [reflexivity|]. split; [reflexivity|].
    exists d. eexists. split; [reflexivity|]. split; [exists d, []; rewrite app_nil_r; auto | reflexivity].
Qed.
Lemma ts_ok tid : forallb patChar tid = true -> exists r, regExpNew (tablespaceExp tid) = Ok r.
Proof. intros H. unfold regExpNew. rewrite (ts_re tid H). eexists. reflexivity. Qed.

(** * The expression for files to be zeroed: groups of patterns *)
Definition grpExp (p : str) : str := txt "(^" ++ p ++ txt ")".
Definition grpRe (p : str) : re := seqRe [seqRe (rev (map patRe p) ++ [RBeg])].
Fixpoint groups (ps : list str) : str := match ps with [] => [] | [p] => grpExp p | p :: r => grpExp p ++ txt "|" ++ groups r end.
Lemma parse_grp p fuel t acc : forallb patChar p = true ->
  parse (length (grpExp p) + fuel) (grpExp p ++ t) (acc, []) [] = parse fuel t (acc, [seqRe (rev (map patRe p) ++ [RBeg])]) [].
Proof.
  intros H. unfold grpExp. rewrite !app_length, <- !app_assoc.
  change (length (txt "(^")) with 2%nat. change (length (txt ")")) with 1%nat.
  replace (2 + (length p + 1) + fuel)%nat with (S (S (length p + S fuel))) by lia.
  change (txt "(^" ++ p ++ txt ")" ++ t) with (40 :: 94 :: p ++ 41 :: t).
  change (parse (S (S (length p + S fuel))) (40 :: 94 :: p ++ 41 :: t) (acc, []) []) with (parse (length p + S fuel) (p ++ 41 :: t) ([], [RBeg]) [(acc, [])]).
  rewrite parse_pats by exact H. cbn [fst snd]. reflexivity.
Qed.
Lemma parse_groups ps : ps <> [] -> Forall (fun p => forallb patChar p = true) ps -> forall acc fuel,
  parse (length (groups ps) + S fuel) (groups ps) (acc, []) [] = Ok (acc ++ map grpRe ps).
Proof.
  induction ps as [| p ps IH]; intros N HF acc fuel; [contradiction|]. inversion HF as [| ? ? Hp Hps]; subst. destruct ps as [| q ps].
  - cbn [groups]. rewrite <- (app_nil_r (grpExp p)) at 2. rewrite parse_grp by exact Hp. reflexivity.
  - change (groups (p :: q :: ps)) with (grpExp p ++ txt "|" ++ groups (q :: ps)). rewrite !app_length. change (length (txt "|")) with 1%nat.
    replace (length (grpExp p) + (1 + length (groups (q :: ps))) + S fuel)%nat with (length (grpExp p) + S (length (groups (q :: ps)) + S fuel))%nat by lia.
    rewrite parse_grp by exact Hp. change (txt "|" ++ groups (q :: ps)) with (124 :: groups (q :: ps)).
    change (parse (S (length (groups (q :: ps)) + S fuel)) (124 :: groups (q :: ps)) (acc, [seqRe (rev (map patRe p) ++ [RBeg])]) [])
      with (parse (length (groups (q :: ps)) + S fuel) (groups (q :: ps)) (acc ++ [grpRe p], []) []).
    rewrite IH; [| discriminate | exact Hps]. rewrite <- app_assoc. reflexivity.
Qed.
Lemma grp_match p f : found (grpRe p) f <-> exists m a, f = m ++ a /\ fits p m.
Proof.
  rewrite <- (found_start _ _ f (lang_pats p)). apply found_ext. intros b m a. unfold grpRe. rewrite matches_seq_cons. split.
  - intros (m1 & m2 & -> & H1 & H2). apply matches_eps in H1. subst m1. rewrite app_nil_r in H2. cbn [app]. apply (seqRe_rev (RBeg :: map patRe p)). exact H2.
  - intros H. exists [], m. split; [reflexivity|]. split; [apply matches_eps; reflexivity|]. rewrite app_nil_r. apply (seqRe_rev (RBeg :: map patRe p)) in H. exact H.
Qed.
Lemma found_alts l f : l <> [] -> found (altRe l) f <-> exists r, In r l /\ found r f.
Proof.
  induction l as [| r l IH]; intros N; [contradiction|]. destruct l as [| q l].
  - cbn [altRe]. split; [intros H; exists r; split; [now left | exact H]|]. intros (x & [<- | []] & H). exact H.
  - change (altRe (r :: q :: l)) with (RAlt r (altRe (q :: l))). specialize (IH ltac:(discriminate)). split.
    + intros (b & m & a & E & M). apply matches_alt in M. destruct M as [M | M].
      * exists r. split; [now left|]. exists b, m, a. auto.
      * destruct IH as [IH _]. destruct IH as (x & Hx & Hf); [exists b, m, a; auto|]. exists x. split; [now right | exact Hf].
    + intros (x & [<- | Hx] & (b & m & a & E & M)).
      * exists b, m, a. split; [exact E|]. apply matches_alt. now left.
      * destruct IH as [_ IH]. destruct IH as (b' & m' & a' & E' & M'); [exists x; split; [exact Hx|]; exists b, m, a; auto|].
        exists b', m', a'. split; [exact E'|]. apply matches_alt. now right.
Qed.
Lemma groups_match ps f : ps <> [] -> Forall (fun p => forallb patChar p = true) ps -> exists r, regExpNew (groups ps) = Ok r /\
  (regExpMatch r f = true <-> exists p m a, In p ps /\ f = m ++ a /\ fits p m).
Proof.
  intros N HF. unfold regExpNew, regcomp. replace (S (length (groups ps))) with (length (groups ps) + 1)%nat by lia. rewrite (parse_groups ps N HF [] 0).
  cbn [bind app]. eexists. split; [reflexivity|]. unfold regExpMatch. rewrite regexec_spec, found_alts by (destruct ps; [contradiction | discriminate]). split.
  - intros (r & Hr & Hf). apply in_map_iff in Hr. destruct Hr as (p & <- & Hp). apply grp_match in Hf. destruct Hf as (m & a & E & F). eauto 6.
  - intros (p & m & a & Hp & E & F). exists (grpRe p). split; [now apply in_map|]. apply grp_match. eauto.
Qed.

(** The model's text is such a list of groups *)
Definition patsOf (targets : list mtarget) (tid db : str) : list str :=
  (txt "pg_data/base/" ++ db ++ txt "/") ::
  flat_map (fun t => if mtTablespaceId t =? 0 then [] else [mtName t ++ txt "/" ++ tid ++ txt "/" ++ db ++ txt "/"]) targets.
Lemma groups_cons p ps : groups (p :: ps) = grpExp p ++ flat_map (fun q => txt "|" ++ grpExp q) ps.
Proof.
  revert p. induction ps as [| q ps IH]; intros p; cbn [flat_map]; [now rewrite app_nil_r|].
  change (groups (p :: q :: ps)) with (grpExp p ++ txt "|" ++ groups (q :: ps)). rewrite IH, <- app_assoc. reflexivity.
Qed.
Lemma dbExp_groups targets tid db : dbExp targets tid db = groups (patsOf targets tid db).
Proof.
  unfold dbExp, patsOf. rewrite groups_cons. unfold grpExp. rewrite <- !app_assoc. change (txt "(^pg_data/base/") with (txt "(^" ++ txt "pg_data/base/").
  change (txt "/)") with (txt "/" ++ txt ")"). rewrite <- !app_assoc. do 5 f_equal.
  induction targets as [| t r IH]; [reflexivity|]. cbn [flat_map]. rewrite flat_map_app, IH. f_equal. destruct (mtTablespaceId t =? 0); [reflexivity|].
  cbn [flat_map]. rewrite app_nil_r. change (txt "|(^") with (txt "|" ++ txt "(^"). rewrite <- !app_assoc. reflexivity.
Qed.
Lemma groups_app a b : a <> [] -> b <> [] -> groups (a ++ b) = groups a ++ txt "|" ++ groups b.
Proof.
  destruct a as [| p a]; [contradiction|]. destruct b as [| q b]; [contradiction|]. intros _ _. cbn [app]. rewrite !groups_cons, flat_map_app, <- app_assoc.
  cbn [flat_map]. rewrite <- !app_assoc. reflexivity.
Qed.
Lemma zero_groups targets tid l : zeroExpression targets tid l = groups (flat_map (patsOf targets tid) l).
Proof.
  induction l as [| d l IH]; [reflexivity|]. destruct l as [| e l].
  - cbn [zeroExpression flat_map]. rewrite app_nil_r. apply dbExp_groups.
  - change (zeroExpression targets tid (d :: e :: l)) with (dbExp targets tid d ++ txt "|" ++ zeroExpression targets tid (e :: l)).
    rewrite IH, dbExp_groups. cbn [flat_map]. rewrite <- groups_app; [reflexivity | discriminate | discriminate].
Qed.
Lemma zero_match targets tid l f : l <> [] -> forallb patChar tid = true -> Forall (fun d => forallb literal d = true) l ->
  (forall t, In t targets -> mtTablespaceId t <> 0 -> forallb literal (mtName t) = true) ->
  exists r, regExpNew (zeroExpression targets tid l) = Ok r /\ (regExpMatch r f = true <-> exists d, In d l /\ inDb targets tid d f).
Proof.
  intros N HT HD HG. rewrite zero_groups. rewrite Forall_forall in HD.
  assert (HP : forall d p, In d l -> In p (patsOf targets tid d) -> p = txt "pg_data/base/" ++ d ++ txt "/" \/
     exists t, In t targets /\ mtTablespaceId t <> 0 /\ p = mtName t ++ txt "/" ++ tid ++ txt "/" ++ d ++ txt "/").
  { intros d p Hd [<- | Hp]; [now left|]. right. apply in_flat_map in Hp. destruct Hp as (t & Ht & Hp). destruct (Z.eqb_spec (mtTablespaceId t) 0) as [|NZ]; [destruct Hp|].
    destruct Hp as [<- | []]. eauto. }
  destruct (groups_match (flat_map (patsOf targets tid) l) f) as (r & H1 & H2).
  - destruct l; [contradiction | discriminate].
  - apply Forall_forall. intros p Hp. apply in_flat_map in Hp. destruct Hp as (d & Hd & Hp). destruct (HP d p Hd Hp) as [-> | (t & Ht & NZ & ->)]; rewrite !forallb_app.
    + now rewrite (pat_lits _ (HD d Hd)).
    + rewrite (pat_lits _ (HD d Hd)), (pat_lits _ (HG t Ht NZ)), HT. reflexivity.
  - exists r. split; [exact H1|]. rewrite H2. split.
    + intros (p & m & a & Hp & -> & F). apply in_flat_map in Hp. destruct Hp as (d & Hd & Hp). exists d. split; [exact Hd|]. exists a.
      destruct (HP d p Hd Hp) as [-> | (t & Ht & NZ & ->)].
      * left. apply fits_literal in F; [subst m; rewrite <- !app_assoc; reflexivity|]. rewrite !forallb_app, (HD d Hd). reflexivity.
      * right. apply fits_app in F. destruct F as (m1 & m2 & -> & F1 & F2). apply fits_app in F2. destruct F2 as (m3 & m4 & -> & F3 & F4).
        apply fits_app in F4. destruct F4 as (x & m5 & -> & F5 & F6). apply fits_literal in F1; [| exact (HG t Ht NZ)]. apply fits_literal in F3; [| reflexivity].
        apply fits_literal in F6; [| rewrite !forallb_app, (HD d Hd); reflexivity]. subst. exists t, x. split; [exact Ht|]. split; [exact NZ|]. split; [exact F5|].
        rewrite <- !app_assoc. reflexivity.
    + intros (d & Hd & (a & [-> | (t & x & Ht & NZ & F & ->)])).
      * exists (txt "pg_data/base/" ++ d ++ txt "/"), (txt "pg_data/base/" ++ d ++ txt "/"), a. split; [apply in_flat_map; exists d; split; [exact Hd | now left]|].
        split; [rewrite <- !app_assoc; reflexivity|]. apply fits_literal; [rewrite !forallb_app, (HD d Hd) |]; reflexivity.
      * exists (mtName t ++ txt "/" ++ tid ++ txt "/" ++ d ++ txt "/"), (mtName t ++ txt "/" ++ x ++ txt "/" ++ d ++ txt "/"), a.
        split; [| split; [rewrite <- !app_assoc; reflexivity|]].
        -- apply in_flat_map. exists d. split; [exact Hd|]. right. apply in_flat_map. exists t. split; [exact Ht|]. destruct (Z.eqb_spec (mtTablespaceId t) 0); [contradiction | now left].
        -- assert (R : forall s, fits s s) by (induction s; constructor; auto).
           apply fits_app. do 2 eexists. split; [reflexivity|]. split; [apply R|]. apply fits_app. do 2 eexists. split; [reflexivity|]. split; [apply R|].
           apply fits_app. do 2 eexists. split; [reflexivity|]. split; [exact F | apply R].
Qed.
