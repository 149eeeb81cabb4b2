From Verif Require Import Base Str NumSpec JsonModel JsonSpec JsonProof JsonProof3 JsonProof4 JsonProof5 JsonProof7 IniModel InfoModel InfoSpec IniProof InfoProof InfoProof2 InfoProof3.
Open Scope Z_scope.

(** * The checksum text determines the entries *)
Lemma quote_split a : forall b x y, ~ In 34 a -> ~ In 34 b -> a ++ 34 :: x = b ++ 34 :: y -> a = b /\ x = y.
Proof.
  induction a as [|c a IH]; intros [|d b] x y Ha Hb E; cbn in E.
  - injection E as E. auto.
  - injection E as E1 E2. subst d. exfalso. apply Hb. now left.
  - injection E as E1 E2. subst c. exfalso. apply Ha. now left.
  - injection E as E1 E2. subst d. destruct (IH b x y) as [-> ->]; [intros K; apply Ha; now right|intros K; apply Hb; now right|exact E2|auto].
Qed.
Lemma escape_inj c d x y : jsonEscape c ++ x = jsonEscape d ++ y -> c = d /\ x = y.
Proof.
  unfold jsonEscape. intros E.
  repeat (match type of E with context [if ?c =? ?n then _ else _] => destruct (Z.eqb_spec c n); [subst c|] end); cbn in E; injection E; intros; subst; try lia; auto; try (exfalso; lia).
Qed.
Lemma escape_head c x : exists h t, jsonEscape c ++ x = h :: t /\ h <> 34.
Proof.
  unfold jsonEscape. repeat (match goal with |- context [if ?c =? ?n then _ else _] => destruct (Z.eqb_spec c n) end; [cbn; eexists _, _; split; [reflexivity|lia]|]). cbn. eauto.
Qed.
Lemma escapes_inj a : forall b x y, flat_map jsonEscape a ++ 34 :: x = flat_map jsonEscape b ++ 34 :: y -> a = b /\ x = y.
Proof.
  induction a as [|c a IH]; intros [|d b] x y E; cbn [flat_map] in E.
  - cbn in E. injection E as ->. auto.
  - rewrite <- app_assoc in E. destruct (escape_head d (flat_map jsonEscape b ++ 34 :: y)) as (h & t & Eh & Hh). rewrite Eh in E. cbn in E. injection E as E1 _. congruence.
  - rewrite <- app_assoc in E. destruct (escape_head c (flat_map jsonEscape a ++ 34 :: x)) as (h & t & Eh & Hh). rewrite Eh in E. cbn in E. injection E as E1 _. congruence.
  - rewrite <- !app_assoc in E. apply escape_inj in E as [-> E]. apply IH in E as [-> ->]. auto.
Qed.
Lemma quote_inj a b x y : jsonQuote a ++ x = jsonQuote b ++ y -> a = b /\ x = y.
Proof. unfold jsonQuote. cbn. intros E. injection E as E. rewrite <- !app_assoc in E. cbn in E. now apply escapes_inj. Qed.

Definition sumEntry (e : entry) : Prop := fst (fst e) <> [] /\ ~ In 34 (fst (fst e)) /\ jsonValidate (snd e) = Ok tt.
Lemma sums_head l : forall last, last <> [] -> exists c t, sumsFrom last l ++ sumEnd = c :: t /\ (c = 44 \/ c = 125).
Proof.
  intros last H. destruct l as [|[[s k] v] l]; cbn [sumsFrom]; [unfold sumEnd; cbn; eauto|]. unfold sumAdd. destruct last as [|c last]; [congruence|].
  cbn [orb]. destruct (strEqb s (c :: last)); cbn; eauto.
Qed.
Lemma tail_ok l last c : last <> [] -> hd_error (sumsFrom last l ++ sumEnd) = Some c -> isWs c = false /\ isDigit c = false.
Proof. intros H E. destruct (sums_head l last H) as (d & t & E2 & Hd). rewrite E2 in E. injection E as <-. destruct Hd as [-> | ->]; auto. Qed.
Lemma kv_inj s k1 v1 l1 k2 v2 l2 : s <> [] -> jsonValidate v1 = Ok tt -> jsonValidate v2 = Ok tt ->
  (sumKeyValue k1 v1 ++ sumsFrom s l1) ++ sumEnd = (sumKeyValue k2 v2 ++ sumsFrom s l2) ++ sumEnd -> k1 = k2 /\ v1 = v2 /\ sumsFrom s l1 ++ sumEnd = sumsFrom s l2 ++ sumEnd.
Proof.
  intros Hs H1 H2 E. unfold sumKeyValue in E. rewrite <- !app_assoc in E. apply quote_inj in E as [-> E]. cbn in E. injection E as E.
  destruct (validate_prefix v1 (sumsFrom s l1 ++ sumEnd) v2 (sumsFrom s l2 ++ sumEnd)) as [-> ->]; try assumption; auto.
  - intros c. now apply tail_ok.
  - intros c. now apply tail_ok.
  - destruct (sums_head l1 s Hs) as (c & t & -> & _). discriminate.
  - destruct (sums_head l2 s Hs) as (c & t & -> & _). discriminate.
Qed.
Lemma section_inj s1 s2 x y : ~ In 34 s1 -> ~ In 34 s2 -> sumSection s1 ++ x = sumSection s2 ++ y -> s1 = s2 /\ x = y.
Proof.
  intros H1 H2 E. unfold sumSection in E. cbn in E. injection E as E. rewrite <- !app_assoc in E. cbn in E. apply quote_split in E as [-> E]; try assumption.
  injection E as ->. auto.
Qed.
Theorem sums_inj l1 : forall l2 last, Forall sumEntry l1 -> Forall sumEntry l2 -> sumsFrom last l1 ++ sumEnd = sumsFrom last l2 ++ sumEnd -> l1 = l2.
Proof.
  induction l1 as [|[[s1 k1] v1] l1 IH]; intros [|[[s2 k2] v2] l2] last H1 H2 E; [reflexivity| | |].
  - exfalso. cbn [sumsFrom] in E. unfold sumAdd in E. destruct last as [|c last]; cbn in E; [discriminate|]. destruct (strEqb s2 (c :: last)); cbn in E; discriminate.
  - exfalso. cbn [sumsFrom] in E. unfold sumAdd in E. destruct last as [|c last]; cbn in E; [discriminate|]. destruct (strEqb s1 (c :: last)); cbn in E; discriminate.
  - inversion H1 as [|? ? (A1 & A2 & A3) H1']; subst. inversion H2 as [|? ? (B1 & B2 & B3) H2']; subst. cbn [fst snd] in *. cbn [sumsFrom] in E. unfold sumAdd in E.
    assert (K : s1 = s2 /\ (sumKeyValue k1 v1 ++ sumsFrom s1 l1) ++ sumEnd = (sumKeyValue k2 v2 ++ sumsFrom s2 l2) ++ sumEnd).
    { destruct last as [|c last].
      - cbn [orb app] in E. apply section_inj; try assumption. repeat rewrite <- app_assoc in E. repeat rewrite <- app_assoc. exact E.
      - cbn [orb] in E. destruct (strEqb_spec s1 (c :: last)) as [E1|E1], (strEqb_spec s2 (c :: last)) as [E2|E2]; cbn [negb] in E.
        + split; [congruence|]. repeat rewrite <- app_assoc in E. repeat rewrite <- app_assoc. apply app_inv_head in E. exact E.
        + exfalso. cbn in E. discriminate.
        + exfalso. cbn in E. discriminate.
        + apply section_inj; try assumption. repeat rewrite <- app_assoc in E. repeat rewrite <- app_assoc. apply app_inv_head in E. exact E. }
    destruct K as [-> E']. apply kv_inj in E' as (-> & -> & E'); try assumption. f_equal. exact (IH l2 s2 H1' H2' E').
Qed.

(** * What has been accepted *)
(** All the keys and values of an ini text, in order *)
Section Load.
  Variable D : Type.
  Variable cb : D -> str -> str -> str -> res D.
  Variable sha : str -> str.
  Variable bufSize : nat.
  Definition isSumEntry (e : entry) : bool := strEqb (fst (fst e)) sBackrest && strEqb (snd (fst e)) kChecksum.
  Definition isDataEntry (e : entry) : bool := negb (strEqb (fst (fst e)) sBackrest) && negb (strEqb (fst (fst e)) sCipher).
  Lemma loadValue_effect st s k v st' : infoLoadValue D cb st s k v = Ok st' ->
    (if isSumEntry (s, k, v) then ilSum D st' = ilSum D st /\ ilLast D st' = ilLast D st /\ exists x, ilExpected D st' = x /\ match x with Some c => jsonToVar v = Ok (JStr c) | None => True end
     else ilSum D st' = ilSum D st ++ sumAdd (ilLast D st) s k v /\ ilLast D st' = s /\ ilExpected D st' = ilExpected D st) /\
    (if isDataEntry (s, k, v) then cb (ilData D st) s k v = Ok (ilData D st') else ilData D st' = ilData D st).
  Proof.
    unfold infoLoadValue, isSumEntry, isDataEntry. cbn [fst snd]. destruct (strEqb s sBackrest) eqn:Es; cbn [andb negb].
    - destruct (strEqb_spec k kChecksum) as [-> |Hk].
      + change (strEqb kChecksum kFormat) with false. change (strEqb kChecksum kVersion) with false.
        destruct (jsonToVar v) as [w| |]; try discriminate. cbn [bind]. destruct w; cbn [varStr bind]; try discriminate; intros H; injection H as <-; cbn; (split; [|reflexivity]); (split; [reflexivity|]); (split; [reflexivity|]); eexists; (split; [reflexivity|]); cbn; auto.
      + destruct (strEqb k kFormat); [|destruct (strEqb k kVersion)].
        * destruct (jsonToVar v) as [w| |]; try discriminate. cbn [bind]. destruct w; cbn [varUInt64 bind]; try discriminate. destruct (_ =? _); [|discriminate]. intros H; injection H as <-; cbn; auto.
        * destruct (jsonToVar v) as [w| |]; try discriminate. cbn [bind]. destruct w; cbn [varStr bind]; try discriminate; intros H; injection H as <-; cbn; auto.
        * intros H; injection H as <-; cbn; auto.
    - destruct (strEqb s sCipher); cbn [negb andb].
      + destruct (strEqb k kCipherPass).
        * destruct (jsonToVar v) as [w| |]; try discriminate. cbn [bind]. destruct w; cbn [varStr bind]; try discriminate; intros H; injection H as <-; cbn; auto.
        * intros H; injection H as <-; cbn; auto.
      + cbn [ilData]. destruct (cb (ilData D st) s k v) as [d| |]; try discriminate. cbn [bind]. intros H; injection H as <-; cbn; auto.
  Qed.
  Lemma loadAll_effect l : forall st st', loadAll D cb st l = Ok st' ->
    ilSum D st' = ilSum D st ++ sumsFrom (ilLast D st) (filter (fun e => negb (isSumEntry e)) l) /\
    feed cb (ilData D st) (filter isDataEntry l) = Ok (ilData D st') /\
    (forall c, ilExpected D st' = Some c -> ilExpected D st = Some c \/ exists v, In (sBackrest, kChecksum, v) l /\ jsonToVar v = Ok (JStr c)).
  Proof.
    induction l as [|[[s k] v] l IH]; intros st st' H; cbn [loadAll] in H.
    - injection H as <-. cbn. rewrite app_nil_r. auto.
    - destruct (infoLoadValue D cb st s k v) as [st1| |] eqn:E; try discriminate. cbn [bind] in H. destruct (IH _ _ H) as (I1 & I2 & I3). apply loadValue_effect in E as [E1 E2]. cbn [filter].
      assert (F : feed cb (ilData D st) (if isDataEntry (s, k, v) then (s, k, v) :: filter isDataEntry l else filter isDataEntry l) = Ok (ilData D st')).
      { destruct (isDataEntry (s, k, v)); [cbn [feed]; rewrite E2; exact I2|rewrite <- E2; exact I2]. }
      destruct (isSumEntry (s, k, v)) eqn:Eb; cbn [negb].
      + destruct E1 as (E1 & E3 & x & E4 & E5). rewrite I1, E1, E3. split; [reflexivity|]. split; [exact F|]. intros c Hc. right. destruct (I3 c Hc) as [K|(w & K1 & K2)].
        * exists v. split; [left|]. { unfold isSumEntry in Eb. cbn [fst snd] in Eb. apply andb_true_iff in Eb as [B1 B2]. apply strEqb_eq in B1, B2. now subst. }
          assert (x = Some c) by congruence. subst x. rewrite H0 in E5. exact E5.
        * exists w. split; [now right|exact K2].
      + destruct E1 as (E1 & E3 & E4). rewrite I1, E1, E3. split; [cbn [sumsFrom]; now rewrite app_assoc|]. split; [exact F|]. intros c Hc. destruct (I3 c Hc) as [K|(w & K1 & K2)].
        * left. congruence.
        * right. exists w. split; [now right|exact K2].
  Qed.
End Load.

(** * Reading all entries *)
Lemma split_first s : forall pre k v, iniSplitStrict pre s = Ok (pre ++ k, v) -> s = k ++ 61 :: v -> forall k' w, s = k' ++ 61 :: w -> (length k' < length k)%nat -> jsonValidate w = Err EJsonFormat.
Proof.
  induction s as [|c s IH]; intros pre k v H Es k' w E L; [destruct k'; discriminate|].
  cbn [iniSplitStrict] in H. destruct k as [|c0 k]; [cbn in L; lia|]. cbn in Es. injection Es as <- Es.
  assert (N : iniSplitStrict (pre ++ [c]) s = Ok ((pre ++ [c]) ++ k, v) -> k' <> [] -> jsonValidate w = Err EJsonFormat).
  { intros H' Hk. destruct k' as [|c1 k']; [congruence|]. cbn in E. injection E as _ E. apply (IH _ _ _ H' Es k' w E). cbn in L. lia. }
  assert (Ea : pre ++ c :: k = (pre ++ [c]) ++ k) by now rewrite <- app_assoc.
  destruct (Z.eqb_spec c 61) as [-> |Hc].
  - destruct (jsonValidate s) as [x|e|] eqn:Ev; try discriminate.
    + injection H as H _. exfalso. apply (f_equal (@length Z)) in H. rewrite app_length in H. cbn in H. lia.
    + destruct e; try discriminate. destruct k' as [|c1 k']; [cbn in E; injection E as <-; exact Ev|]. apply N; [now rewrite <- Ea|discriminate].
  - apply N; [now rewrite <- Ea|]. intros ->. cbn in E. injection E as E _. congruence.
Qed.
Lemma iniLine_first sec line sec' k v : iniLine true sec line = Ok (sec', Some (k, v)) ->
  ~ (exists n, line = 91 :: n ++ [93]) /\ forall k' w, line = k' ++ 61 :: w -> (length k' < length k)%nat -> jsonValidate w = Err EJsonFormat.
Proof.
  intros H. pose proof (iniLine_sound _ _ _ _ _ H) as (_ & _ & _ & El & _). unfold iniLine in H. destruct line as [|c r]; [discriminate|]. cbn [negb andb orb] in H.
  destruct ((c =? 91) && (last (c :: r) 0 =? 93)) eqn:Eb.
  - destruct (removelast r); discriminate.
  - split.
    { intros (n & En). injection En as -> ->. change (91 :: n ++ [93]) with ((91 :: n) ++ [93]) in Eb. rewrite last_snoc in Eb. discriminate. }
    destruct sec as [|x sec]; [discriminate|]. destruct (iniSplitStrict [] (c :: r)) as [[k' v']| |] eqn:E; try discriminate. cbn [bind] in H. destruct k' as [|a k']; [discriminate|].
    injection H as _ <- <-. apply (split_first (c :: r) [] (a :: k') v' E El).
Qed.
Lemma iniLine_none sec line sec' : iniLine true sec line = Ok (sec', None) -> (line = [] /\ sec' = sec) \/ (sec' <> [] /\ line = 91 :: sec' ++ [93]).
Proof.
  unfold iniLine. destruct line as [|c r]; [intros H; injection H as <-; auto|]. cbn [negb andb orb].
  destruct ((c =? 91) && (last (c :: r) 0 =? 93)) eqn:Eb.
  - apply andb_true_iff in Eb as [E1 E2]. apply Z.eqb_eq in E1, E2. subst c. destruct r as [|d r] using rev_ind; [discriminate|]. clear IHr.
    change (91 :: r ++ [d]) with ((91 :: r) ++ [d]) in E2. rewrite last_snoc in E2. subst d. rewrite removelast_last. destruct r as [|a r]; [discriminate|].
    intros H. injection H as <-. right. split; [discriminate|reflexivity].
  - destruct sec as [|x sec]; [discriminate|]. destruct (iniSplitStrict [] (c :: r)) as [[k' v']| |]; try discriminate. cbn [bind]. destruct k'; discriminate.
Qed.
Lemma lines_text text : textLines text (iniLines text).
Proof.
  induction text as [|c t [IH1 IH2]]; cbn [iniLines]; [split; [constructor|now left]|]. destruct (Z.eqb_spec c 10) as [-> |Hc].
  - split; [constructor; [intros []|exact IH1]|]. destruct IH2 as [IH2|(ls & l & E & Hl & IH2)]; [left; cbn; rewrite <- IH2; reflexivity|right].
    exists ([] :: ls), l. rewrite E. split; [reflexivity|]. split; [exact Hl|]. cbn. now rewrite <- IH2.
  - destruct (iniLines t) as [|l ls] eqn:El.
    + split; [constructor; [intros [K|[]]; congruence|constructor]|]. right. exists [], [c]. split; [reflexivity|]. split; [discriminate|]. cbn.
      destruct t as [|d t]; [reflexivity|]. exfalso. cbn in El. destruct (d =? 10); [discriminate|]. destruct (iniLines t); discriminate.
    + inversion IH1 as [|? ? H1 H2]; subst. split; [constructor; [intros [K|K]; [congruence|exact (H1 K)]|exact H2]|].
      destruct IH2 as [IH2|(ls' & l' & E & Hl & IH2)]; [left; cbn in *; rewrite <- IH2; reflexivity|right].
      destruct ls' as [|a ls']; cbn in E; injection E as -> ->.
      * exists [], (c :: l'). split; [reflexivity|]. split; [discriminate|]. cbn in *. now rewrite <- IH2.
      * exists ((c :: a) :: ls'), l'. split; [reflexivity|]. split; [exact Hl|]. cbn in *. now rewrite <- IH2.
Qed.
Lemma lines_unique text ls : textLines text ls -> ls = iniLines text.
Proof.
  intros [Hl [-> |(ls' & l & -> & Hn & ->)]]; [symmetry; exact (iniLines_unlines ls Hl)|]. apply Forall_app in Hl as [H1 H2]. inversion H2 as [|? ? H3 _]; subst. clear H2.
  induction H1 as [|a ls' Ha H1 IH]; cbn [flat_map app].
  - destruct l as [|c l]; [congruence|]. clear Hn. revert c H3. induction l as [|d l IH]; intros c H3; cbn [iniLines].
    + destruct (Z.eqb_spec c 10) as [-> |]; [exfalso; apply H3; now left|reflexivity].
    + destruct (Z.eqb_spec c 10) as [-> |]; [exfalso; apply H3; now left|]. specialize (IH d ltac:(intros K; apply H3; now right)). cbn [iniLines] in IH. rewrite <- IH. reflexivity.
  - rewrite <- !app_assoc. cbn [app]. rewrite iniLines_cons by exact Ha. now f_equal.
Qed.
Lemma next_entries bufSize lines : forall sec kv sec' lines', iniValueNext bufSize true sec lines = Ok (kv, sec', lines') ->
  match kv with
  | None => iniEntries sec lines []
  | Some (k, v) => forall l, iniEntries sec' lines' l -> iniEntries sec lines ((sec', k, v) :: l)
  end.
Proof.
  induction lines as [|x lines IH]; intros sec kv sec' lines' H; cbn [iniValueNext] in H; [injection H as <- <- <-; constructor|].
  unfold lineRead in H. destruct (bufSize <=? length x)%nat; [discriminate|]. cbn [bind] in H. destruct (iniLine true sec x) as [[sec1 [[k v]|]]| |] eqn:E; try discriminate; cbn [bind] in H.
  - injection H as <- <- <-. intros l Hl. pose proof (iniLine_first _ _ _ _ _ E) as [F1 F2]. apply iniLine_sound in E as (-> & H1 & H2 & -> & H3). constructor; assumption.
  - specialize (IH _ _ _ _ H). apply iniLine_none in E as [[-> ->]|[Hs ->]].
    + destruct kv as [[k v]|]; [intros l Hl; constructor; now apply IH|now constructor].
    + destruct kv as [[k v]|]; [intros l Hl; constructor; [exact Hs|now apply IH]|now constructor].
Qed.
Lemma entries_sound s ls l : iniEntries s ls l -> Forall (fun e => fst (fst e) <> [] /\ snd (fst e) <> [] /\ jsonValidate (snd e) = Ok tt) l.
Proof. induction 1; try assumption; constructor; auto. Qed.
Lemma sums_spec l : forall last, sumsFrom last l ++ sumEnd = checksumFrom last l.
Proof.
  induction l as [|[[s k] v] l IH]; intros last; [reflexivity|]. cbn [sumsFrom checksumFrom]. rewrite <- IH. unfold sumAdd, sumKeyValue, sumSectionNext, sumSection.
  destruct last as [|c last]; [cbn [orb]|cbn [orb]; destruct (strEqb s (c :: last)); cbn [negb]]; repeat rewrite <- app_assoc; cbn [app]; repeat rewrite <- app_assoc; reflexivity.
Qed.
Theorem checksum_inj l1 l2 : Forall (fun e : str * str * str => fst (fst e) <> [] /\ ~ In 34 (fst (fst e)) /\ jsonValidate (snd e) = Ok tt) l1 ->
  Forall (fun e : str * str * str => fst (fst e) <> [] /\ ~ In 34 (fst (fst e)) /\ jsonValidate (snd e) = Ok tt) l2 -> checksumText l1 = checksumText l2 -> l1 = l2.
Proof. unfold checksumText. intros H1 H2 E. injection E as E. rewrite <- !sums_spec in E. exact (sums_inj l1 l2 [] H1 H2 E). Qed.

Section Accept.
  Variable D : Type.
  Variable cb : D -> str -> str -> str -> res D.
  Variable sha : str -> str.
  Variable bufSize : nat.
  Lemma loop_inv fuel : forall st sec lines st', infoLoadLoop D cb bufSize fuel st sec lines = Ok st' -> exists l, iniEntries sec lines l /\ loadAll D cb st l = Ok st'.
  Proof.
    induction fuel as [|fuel IH]; intros st sec lines st' H; cbn [infoLoadLoop] in H; [discriminate|].
    destruct (iniValueNext bufSize true sec lines) as [[[kv sec1] lines1]| |] eqn:E; try discriminate. cbn [bind] in H. apply next_entries in E. destruct kv as [[k v]|].
    - destruct (infoLoadValue D cb st sec1 k v) as [st1| |] eqn:E1; try discriminate. cbn [bind] in H. destruct (IH _ _ _ _ H) as (l & Hl & Hs). exists ((sec1, k, v) :: l). split; [now apply E|]. cbn [loadAll]. rewrite E1. exact Hs.
    - injection H as <-. exists []. split; [exact E|reflexivity].
  Qed.
End Accept.
