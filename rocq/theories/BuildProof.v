(** Decisions of the build for one entry. *)
From Coq Require Import String.
From Verif Require Import Base Str NumModel ManifestPackModel ManifestModel RegModel RegSpec RegNameModel RegProof RegProof2 RegProof3 LinkCheckModel LinkCheckProof SpoolModel SpoolProof SelectSpec SelectProof UnloggedModel UnloggedSpec UnloggedProof
  BuildModel BuildSpec.
Open Scope Z_scope.
Open Scope list_scope.

Lemma begins_iff s p : strBeginsWith s p = true <-> begins s p.
Proof. apply LinkCheckProof.begins_iff. Qed.
Lemma name_in s l : existsb (strEqb s) l = true <-> In s l.
Proof.
  rewrite existsb_exists. split; [intros (x & H & E); apply strEqb_eq in E; now subst | intros H; exists s; split; [exact H | apply strEqb_refl]].
Qed.

Section N.
Variables (o : bopts) (n : node).
Notation i := (nInfo n).
Lemma skipEntry_iff : skipEntry o (nName n) i = true <-> hidden o n.
Proof. unfold skipEntry, hidden. rewrite orb_true_iff, begins_iff, strLstExists_in. reflexivity. Qed.
Lemma wal_iff p : strEqb p (walName o) = true <-> isWal o p.
Proof. rewrite strEqb_eq. reflexivity. Qed.
Lemma skipContent_iff : skipContent o (nParent n) (nName n) i = true <-> emptied o n.
Proof.
  unfold skipContent, emptied. rewrite !orb_true_iff, !andb_true_iff, strLstExists_in, name_in, wal_iff, !strEqb_eq. change sData with pgData. cbn [map]. tauto.
Qed.
Lemma inSpc_iff : strEqb (nParent n) sTblspc = true <-> inSpc n.
Proof. rewrite strEqb_eq. reflexivity. Qed.
End N.

Lemma seg_re : regcomp (txt "\.[0-9]+") = Ok [segRe].
Proof. reflexivity. Qed.
Lemma lang_seg : lang segRe (fun s => exists d, isId d /\ s = txt "." ++ d).
Proof.
  unfold segRe. eapply lang_ext; [exact (lang_one _ _ (lang_only _ _ lang_digits) _ _ (lang_chr 46))|]. intros s. split.
  - intros (a & b & -> & -> & H). exists b. auto.
  - intros (d & H & ->). exists [46], d. auto.
Qed.
Lemma internal_iff s : exists b, internalInit s = Ok b /\ (b = true <-> relCache s).
Proof.
  unfold internalInit, relCache. destruct (strBeginsWith s (txt "pg_internal.init")) eqn:EB.
  - apply begins_iff in EB. destruct EB as (r & ->).
    destruct (Nat.eqb_spec (length (txt "pg_internal.init" ++ r)) (length (txt "pg_internal.init"))) as [E | E].
    + exists true. split; [reflexivity|]. split; [intros _ | reflexivity]. exists r. split; [reflexivity|]. left. rewrite app_length in E. destruct r; [reflexivity|]. cbn [length] in E. lia.
    + rewrite skipn_len_app. destruct (matchOne_spec _ _ r seg_re) as [H1 H2]. unfold found in H1.
      assert (HR : (exists b m a, r = b ++ m ++ a /\ matches segRe b m a) <-> exists a c b, r = a ++ txt "." ++ c :: b /\ 48 <= c <= 57).
      { split.
        - intros (b & m & a & -> & HM). apply lang_seg in HM. destruct HM as (d & (HN & HD) & ->). destruct d as [| c d]; [contradiction|]. exists b, c, (d ++ a).
          split; [reflexivity | apply HD; now left].
        - intros (a & c & b & -> & HC). exists a, (txt "." ++ [c]), b. split; [reflexivity|]. apply lang_seg. exists [c]. split; [| reflexivity]. split; [discriminate|].
          intros x [<- | []]. exact HC. }
      destruct H2 as [H2 | H2]; rewrite H2; eexists; (split; [reflexivity|]).
      * split; [intros _ | reflexivity]. exists r. split; [reflexivity|]. right. apply HR, H1, H2.
      * split; [discriminate|]. intros (r' & ER & HX). apply app_inv_head in ER. subst r'. destruct HX as [-> | HX]; [rewrite app_nil_r in E; lia|].
        apply HR, H1 in HX. congruence.
  - exists false. split; [reflexivity|]. split; [discriminate|]. intros (r & -> & _). assert (strBeginsWith (txt "pg_internal.init" ++ r) (txt "pg_internal.init") = true) by (apply begins_iff; now exists r). congruence.
Qed.
Lemma server_iff v s : skipRoot v s = true <-> ofServer v s.
Proof.
  unfold skipRoot, ofServer. rewrite !orb_true_iff, !andb_true_iff, !orb_true_iff, !strEqb_eq, !Z.leb_le, Z.ltb_lt. cbn [map In].
  split; intros H; decompose [or and] H; subst; tauto.
Qed.
Lemma skipFile_iff o temp n : (forall s, regExpMatch temp s = true <-> tempRelation s) ->
  exists b, skipFile o temp (nParent n) (nDb n) (nInfo n) = Ok b /\ (b = true <-> leftOut o n).
Proof.
  intros HT. unfold skipFile, leftOut. destruct (internal_iff (biName (nInfo n))) as (c & EC & HC).
  assert (E : exists c', (if nDb n then internalInit (biName (nInfo n)) else Ok false) = Ok c' /\ (c' = true <-> nDb n = true /\ relCache (biName (nInfo n)))).
  { destruct (nDb n); [exists c | exists false]; (split; [assumption || reflexivity|]); [tauto | split; [discriminate | intros [F _]; discriminate]]. }
  destruct E as (c' & -> & HC'). cbn [bind]. eexists. split; [reflexivity|].
  rewrite !orb_true_iff, !andb_true_iff, HT, server_iff, wal_iff, HC', strEqb_eq. change sData with pgData. tauto.
Qed.

(** * The file *)
Lemma ends_iff s p : strEndsWith s p = true <-> ends s p.
Proof.
  unfold ends. split; [intros H; exists (stripExt p s); apply endsWith_ex, H | intros (r & ->); apply endsWith_app].
Qed.
Lemma reached_some l x v : firstReached l x = Some v <-> reached l x v.
Proof.
  unfold reached. induction l as [| [t u] l IH]; cbn [firstReached].
  - split; [discriminate | intros (a & t & b & E & _); destruct a; discriminate].
  - destruct (Z.leb_spec t x) as [L | L].
    + split.
      * intros E. injection E as ->. exists [], t, l. auto.
      * intros (a & t' & b & E & L' & F). destruct a as [| q a]; cbn [app] in E; [injection E as -> -> ->; reflexivity|]. injection E as <- ->. inversion F; subst. cbn [fst] in *. lia.
    + rewrite IH. split.
      * intros (a & t' & b & -> & L' & F). exists ((t, u) :: a), t', b. split; [reflexivity|]. split; [exact L'|]. constructor; assumption.
      * intros (a & t' & b & E & L' & F). destruct a as [| q a]; cbn [app] in E; [injection E as -> -> ->; lia|]. injection E as <- ->. inversion F; subst. exists a, t', b. auto.
Qed.
Lemma reached_none l x : firstReached l x = None <-> noneReached l x.
Proof.
  unfold noneReached. induction l as [| [t u] l IH]; cbn [firstReached].
  - split; [constructor | reflexivity].
  - destruct (Z.leb_spec t x) as [L | L]; [split; [discriminate | intros F; inversion F; subst; cbn [fst] in *; lia]|]. rewrite IH. split; [intros F; constructor; assumption | intros F; inversion F; subst; assumption].
Qed.
Lemma block_iff o i b : blockIncrSize o (biSize i) (biTime i) = b <-> blockSize o i b.
Proof.
  unfold blockIncrSize, blockSize. cbv zeta.
  destruct (firstReached (boSizeMap o) (biSize i)) as [s |] eqn:ES.
  - apply reached_some in ES. assert (N : ~ noneReached (boSizeMap o) (biSize i)) by (rewrite <- reached_none; rewrite <- reached_some in ES; congruence).
    assert (U : forall s', reached (boSizeMap o) (biSize i) s' -> s' = s) by (intros s' H; rewrite <- reached_some in H, ES; congruence).
    destruct (Z.eqb_spec s 0) as [-> | NZ].
    + split; [intros <-; right; exists 0; tauto|]. intros [[F _] | (s' & HS & H)]; [contradiction|]. rewrite (U s' HS) in H. intuition congruence.
    + destruct (firstReached (boAgeMap o) (boStart o - biTime i)) as [a |] eqn:EA.
      * split; [intros <-; right; exists s; split; [exact ES|]; right; right; split; [exact NZ|]; exists a; split; [apply reached_some, EA | reflexivity]|].
        intros [[F _] | (s' & HS & H)]; [contradiction|]. rewrite (U s' HS) in H. destruct H as [[F _] | [(_ & F & _) | (_ & a' & HA & ->)]]; [contradiction | apply reached_none in F; congruence|].
        apply reached_some in HA. congruence.
      * split; [intros <-; right; exists s; split; [exact ES|]; right; left; split; [exact NZ|]; split; [apply reached_none, EA | reflexivity]|].
        intros [[F _] | (s' & HS & H)]; [contradiction|]. rewrite (U s' HS) in H. destruct H as [[F _] | [(_ & F & ->) | (_ & a' & HA & ->)]]; [contradiction | reflexivity|].
        apply reached_some in HA. congruence.
  - split.
    + intros <-. left. split; [apply reached_none, ES | reflexivity].
    + intros [[_ ->] | (s & HS & _)]; [reflexivity|]. apply reached_some in HS. congruence.
Qed.
Lemma checksum_iff o b c : blockIncrChecksumSize o b = c <-> checksumSize o b c.
Proof.
  unfold blockIncrChecksumSize, checksumSize. rewrite <- reached_some, <- reached_none. destruct (firstReached (boChecksumMap o) b) as [v |].
  - split; [intros ->; now right | intros [[F _] | E]; congruence].
  - split; [intros <-; now left | intros [[_ ->] | E]; congruence].
Qed.
Lemma bool_iff (a b : bool) : (a = true <-> b = true) -> a = b.
Proof. destruct a, b; intuition congruence. Qed.
Lemma page_iff o n : nDb n && boChecksumPage o && negb (strEndsWith (nName n) (txt "/pg_filenode.map")) && negb (strEndsWith (nName n) (txt "/PG_VERSION")) &&
  negb (strEqb (nName n) (txt "pg_data/global/pg_control")) = true <->
  nDb n = true /\ boChecksumPage o = true /\ ~ ends (nName n) (txt "/pg_filenode.map") /\ ~ ends (nName n) (txt "/PG_VERSION") /\ nName n <> txt "pg_data/global/pg_control".
Proof.
  rewrite !andb_true_iff, !negb_true_iff, <- !not_true_iff_false, !ends_iff, strEqb_eq. tauto.
Qed.
Lemma fileNode_iff o n f : fileNode o n f <-> ofType BFile n /\ ~ hidden o n /\ ~ leftOut o n /\ f = newFile o (nName n) (nDb n) (nInfo n).
Proof.
  unfold fileNode, newFile. cbv zeta. split.
  - intros (H1 & H2 & H3 & E1 & E2 & E3 & E4 & E5 & E6 & HC & HZ & HB1 & HB0 & HP). split; [exact H1|]. split; [exact H2|]. split; [exact H3|].
    assert (EC : bfCopy f = negb ((biSize (nInfo n) =? 0) && boBundle o)).
    { apply bool_iff. rewrite negb_true_iff, <- not_true_iff_false, andb_true_iff, Z.eqb_eq, <- HC. destruct (bfCopy f); intuition congruence. }
    assert (EB : bfBlock f = (if negb (biSize (nInfo n) =? 0) && boBlockIncr o then blockIncrSize o (biSize (nInfo n)) (biTime (nInfo n)) else 0) /\
      bfBlockChecksum f = (if negb (biSize (nInfo n) =? 0) && boBlockIncr o then blockIncrChecksumSize o (bfBlock f) else 0)).
    { destruct (negb (biSize (nInfo n) =? 0) && boBlockIncr o) eqn:EE.
      - apply andb_true_iff in EE. rewrite negb_true_iff, Z.eqb_neq in EE. destruct (HB1 EE) as [A B]. apply block_iff in A. apply checksum_iff in B. auto.
      - apply HB0. intros [F1 F2]. rewrite F2, andb_true_r, negb_false_iff, Z.eqb_eq in EE. contradiction. }
    destruct EB as [EB1 EB2]. rewrite EB1 in EB2. pose proof (bool_iff _ _ (iff_trans HP (iff_sym (page_iff o n)))) as EP.
    destruct f as [f1 f2 f3 f4 f5 f6 f7 f8 f9 f10 f11]. cbn [bfName bfCopy bfZero bfMode bfUser bfGroup bfSize bfTime bfBlock bfBlockChecksum bfChecksumPage] in *. rewrite E1, HZ, EC, negb_involutive, E2, E3, E4, E5, E6, EB1, EB2, EP. reflexivity.
  - intros (H1 & H2 & H3 & ->). cbn [bfName bfCopy bfZero bfMode bfUser bfGroup bfSize bfTime bfBlock bfBlockChecksum bfChecksumPage].
    split; [exact H1|]. split; [exact H2|]. split; [exact H3|]. do 6 (split; [reflexivity|]).
    split; [rewrite negb_false_iff, andb_true_iff, Z.eqb_eq; tauto|]. split; [rewrite negb_involutive; reflexivity|].
    split; [| split; [| apply page_iff]].
    + intros [A B]. rewrite B, andb_true_r. destruct (Z.eqb_spec (biSize (nInfo n)) 0); [contradiction|]. cbn [negb]. split; [apply block_iff; reflexivity | apply checksum_iff; reflexivity].
    + intros F. destruct (negb (biSize (nInfo n) =? 0) && boBlockIncr o) eqn:EE; [| auto]. exfalso. apply F. apply andb_true_iff in EE. rewrite negb_true_iff, Z.eqb_neq in EE. exact EE.
Qed.

(** * The name of a tablespace *)
Lemma tsName_some l id s : tsName l id = Some s <-> exists a b, l = a ++ (id, s) :: b /\ Forall (fun x => fst x <> id) b.
Proof.
  unfold tsName. induction l as [| [k v] l IH] using rev_ind; [split; [discriminate | intros (a & b & E & _); destruct a; discriminate]|].
  rewrite fold_left_app. cbn [fold_left fst snd]. destruct (Z.eqb_spec k id) as [-> | N].
  - split.
    + intros E. injection E as ->. exists l, []. auto.
    + intros (a & b & E & F). destruct b as [| x b] using rev_ind; [apply app_inj_tail in E as [_ E]; congruence|]. exfalso.
      rewrite app_comm_cons, app_assoc in E. apply app_inj_tail in E as [_ E]. subst x. apply Forall_app in F as [_ F]. inversion F; subst. now cbn [fst] in *.
  - rewrite IH. split.
    + intros (a & b & -> & F). exists a, (b ++ [(k, v)]). split; [rewrite <- app_assoc; reflexivity|]. apply Forall_app. split; [exact F | constructor; [exact N | constructor]].
    + intros (a & b & E & F). destruct b as [| x b _] using rev_ind; [apply app_inj_tail in E as [_ E]; congruence|].
      rewrite app_comm_cons, app_assoc in E. apply app_inj_tail in E as [-> _]. apply Forall_app in F as [F _]. eauto.
Qed.
Lemma tsName_none l id : tsName l id = None <-> forall s, ~ In (id, s) l.
Proof.
  unfold tsName. induction l as [| [k v] l IH] using rev_ind; [split; [intros _ s [] | reflexivity]|].
  rewrite fold_left_app. cbn [fold_left fst snd]. destruct (Z.eqb_spec k id) as [-> | N].
  - split; [discriminate|]. intros H. exfalso. apply (H v). apply in_or_app. right. now left.
  - rewrite IH. split; intros H s F; [apply in_app_or in F; destruct F as [F | [F | []]]; [exact (H s F) | congruence] | apply (H s), in_or_app; now left].
Qed.

(** * Expressions *)
Lemma temp_new : exists r, regExpNew tempRelationExp = Ok r /\ forall s, regExpMatch r s = true <-> tempRelation s.
Proof.
  unfold regExpNew. rewrite temp_re. cbn [bind]. eexists. split; [reflexivity|]. intros s. rewrite <- temp_match. unfold regExpMatchOne, regExpNew. rewrite temp_re. cbn [bind].
  split; [intros ->; reflexivity | congruence].
Qed.
Lemma db_new tid : forallb patChar tid = true -> exists r, regExpNew (dbPathExp tid) = Ok r /\ forall s, regExpMatch r s = true <-> isDbPath tid s.
Proof.
  intros H. unfold regExpNew. rewrite (dbPath_re tid H). cbn [bind]. eexists. split; [reflexivity|]. intros s. rewrite <- (dbPath_match tid s H). unfold regExpMatchOne, regExpNew. rewrite (dbPath_re tid H). cbn [bind].
  split; [intros ->; reflexivity | congruence].
Qed.
