From Verif Require Import Base Str ConvertModel NumModel NumSpec.
Open Scope Z_scope.

Lemma digitVal_spec base c d : base <= 36 -> (digitVal base c = Some d <-> digitIs c d /\ d < base).
Proof.
  intros Hb. unfold digitVal. split.
  - intros H. destruct ((48 <=? c) && (c <=? 57)) eqn:E1; [|destruct ((97 <=? c) && (c <=? 122)) eqn:E2; [|destruct ((65 <=? c) && (c <=? 90)) eqn:E3]].
    + destruct (c - 48 <? base) eqn:E; [|discriminate]. injection H as <-. split; [|lia].
      replace c with (48 + (c - 48)) at 1 by lia. constructor. lia.
    + destruct (c - 87 <? base) eqn:E; [|discriminate]. injection H as <-. split; [|lia].
      replace c with (87 + (c - 87)) at 1 by lia. constructor. lia.
    + destruct (c - 55 <? base) eqn:E; [|discriminate]. injection H as <-. split; [|lia].
      replace c with (55 + (c - 55)) at 1 by lia. apply hexu. lia.
    + destruct (99 <? base) eqn:E; [lia|discriminate].
  - intros [H Hd]. destruct H as [d H|d H|d H].
    + replace ((48 <=? 48 + d) && (48 + d <=? 57)) with true by lia. replace (48 + d - 48) with d by lia.
      now replace (d <? base) with true by lia.
    + replace ((48 <=? 87 + d) && (87 + d <=? 57)) with false by lia. replace ((97 <=? 87 + d) && (87 + d <=? 122)) with true by lia.
      replace (87 + d - 87) with d by lia. now replace (d <? base) with true by lia.
    + replace ((48 <=? 55 + d) && (55 + d <=? 57)) with false by lia. replace ((97 <=? 55 + d) && (55 + d <=? 122)) with false by lia.
      replace ((65 <=? 55 + d) && (55 + d <=? 90)) with true by lia.
      replace (55 + d - 55) with d by lia. now replace (d <? base) with true by lia.
Qed.

Lemma digitIs_nonneg c d : digitIs c d -> 0 <= d.
Proof. intros H; destruct H; lia. Qed.

Section Scan.
  Variable base : Z.
  Hypothesis Hb : base <= 36.

  (** All characters are digits. *)
  Definition allDigits (s : str) : Prop := forall c, In c s -> exists d, digitVal base c = Some d.
  Fixpoint valueOf (s : str) (acc : Z) : Z :=
    match s with [] => acc | c :: r => valueOf r (acc * base + match digitVal base c with Some d => d | None => 0 end) end.

  Lemma valueOf_app s t acc : valueOf (s ++ t) acc = valueOf t (valueOf s acc).
  Proof. revert acc; induction s as [|c s IH]; intros acc; [reflexivity|]. cbn. apply IH. Qed.

  Lemma digitsIs_iff s v : digitsIs base s v <-> s <> [] /\ allDigits s /\ v = valueOf s 0.
  Proof.
    split.
    - induction 1 as [c d Hc Hd|s v c d H IH Hc Hd].
      + split; [discriminate|]. assert (E : digitVal base c = Some d) by now apply digitVal_spec. split; [|cbn; rewrite E; lia].
        intros x [<-|[]]. eauto.
      + destruct IH as (I1 & I2 & I3). assert (E : digitVal base c = Some d) by now apply digitVal_spec.
        split; [now destruct s|]. split; [|rewrite valueOf_app; cbn; now rewrite E, <- I3].
        intros x Hx. apply in_app_or in Hx. destruct Hx as [Hx|[<-|[]]]; eauto.
    - intros (Hne & Ha & ->). destruct (exists_last Hne) as (s' & c & ->). clear Hne. revert c Ha. induction s' as [|c' s' IH] using rev_ind; intros c Ha.
      + destruct (Ha c (or_introl eq_refl)) as (d & E). cbn. rewrite E. apply digitVal_spec in E; [|exact Hb]. constructor; tauto.
      + destruct (Ha c) as (d & E); [apply in_or_app; right; now left|]. rewrite valueOf_app. cbn [valueOf]. rewrite E.
        apply digitVal_spec in E; [|exact Hb]. constructor; try tauto. apply IH. intros x Hx. apply Ha. apply in_or_app. now left.
  Qed.

  Lemma scanDigits_spec s : forall acc n v k rest, scanDigits base s acc n = (v, k, rest) ->
    exists ds, s = ds ++ rest /\ allDigits ds /\ v = valueOf ds acc /\ k = (n + length ds)%nat /\
      match rest with [] => True | c :: _ => digitVal base c = None end.
  Proof.
    induction s as [|c s IH]; intros acc n v k rest H; cbn [scanDigits] in H.
    - injection H as <- <- <-. exists []. cbn. repeat split; auto. intros c [].
    - destruct (digitVal base c) as [d|] eqn:E.
      + apply IH in H. destruct H as (ds & -> & Ha & Hv & Hk & Hr). exists (c :: ds). cbn [length app valueOf]. rewrite E.
        split; [reflexivity|]. split; [intros x [<-|Hx]; eauto|]. repeat split; auto. lia.
      + injection H as <- <- <-. exists []. cbn. rewrite E. repeat split; auto; try lia. intros x [].
  Qed.
  Lemma scanDigits_all ds : allDigits ds -> forall acc n, scanDigits base ds acc n = (valueOf ds acc, (n + length ds)%nat, []).
  Proof.
    induction ds as [|c ds IH]; intros Ha acc n; cbn [scanDigits valueOf length]; [f_equal; f_equal; lia|].
    destruct (Ha c (or_introl eq_refl)) as (d & E). rewrite E, IH; [|intros x Hx; apply Ha; now right]. f_equal. f_equal. lia.
  Qed.

  Lemma valueOf_nonneg s : 0 <= base -> forall acc, 0 <= acc -> 0 <= valueOf s acc.
  Proof.
    intros Hb0. induction s as [|c s IH]; intros acc Ha; cbn; [exact Ha|]. apply IH.
    destruct (digitVal base c) as [d|] eqn:E; [apply digitVal_spec in E; [|exact Hb]; destruct E as [E _]; apply digitIs_nonneg in E|]; nia.
  Qed.

  Lemma digit_not c d : digitVal base c = Some d -> isSpace c = false /\ c <> 45 /\ c <> 43 /\ (base <= 16 -> c <> 120 /\ c <> 88).
  Proof.
    intros H. apply digitVal_spec in H; [|exact Hb]. destruct H as [H Hd]. unfold isSpace. destruct H; lia.
  Qed.
End Scan.

Section Strto.
  Variable base : Z.
  Hypothesis Hb : 2 <= base <= 16.
  Let Hb36 : base <= 36. Proof. lia. Qed.

  Lemma skipHexPrefix_digits ds : allDigits base ds -> skipHexPrefix base ds = ds.
  Proof.
    intros Ha. unfold skipHexPrefix. destruct ds as [|z [|x [|h r]]]; auto.
    destruct (Ha x) as (d & E); [right; now left|]. apply digit_not in E; [|exact Hb36].
    replace ((x =? 120) || (x =? 88)) with false by lia. now rewrite andb_false_r.
  Qed.
  Lemma skipHexPrefix_prefix p ds : hexPrefix base p -> allDigits base ds -> ds <> [] -> skipHexPrefix base (p ++ ds) = ds.
  Proof.
    intros [->|[E H]] Ha Hne; [now apply skipHexPrefix_digits|]. destruct ds as [|h r]; [contradiction|].
    assert (Hh : isHexChar h = true). { unfold isHexChar. destruct (Ha h (or_introl eq_refl)) as (d & Ed). rewrite <- E, Ed. reflexivity. }
    destruct H as [->| ->]; cbn [app skipHexPrefix]; rewrite E, Hh; reflexivity.
  Qed.
  Lemma skipHexPrefix_cases s : exists p, hexPrefix base p /\ s = p ++ skipHexPrefix base s.
  Proof.
    unfold skipHexPrefix. destruct s as [|z [|x [|h r]]]; try (exists []; split; [now left|reflexivity]).
    destruct ((base =? 16) && (z =? 48) && ((x =? 120) || (x =? 88)) && isHexChar h) eqn:E; [|exists []; split; [now left|reflexivity]].
    apply andb_true_iff in E. destruct E as [E _]. apply andb_true_iff in E. destruct E as [E E3]. apply andb_true_iff in E. destruct E as [E1 E2].
    apply Z.eqb_eq in E1, E2. exists [z; x]. split; [|reflexivity]. right. split; [exact E1|]. subst z.
    destruct (Z.eqb_spec x 120) as [->|]; [auto|]. destruct (Z.eqb_spec x 88) as [->|]; [auto|discriminate].
  Qed.

  Definition signOf (s : str) : bool * str := match s with 45 :: r => (true, r) | 43 :: r => (false, r) | _ => (false, s) end.
  Lemma signOf_cases s : (exists r, s = 45 :: r /\ signOf s = (true, r)) \/ (exists r, s = 43 :: r /\ signOf s = (false, r)) \/
    (signOf s = (false, s) /\ forall r, s <> 45 :: r /\ s <> 43 :: r).
  Proof.
    destruct s as [|c r]; [right; right; split; [reflexivity|split; discriminate]|].
    destruct (Z.eq_dec c 45) as [->|]; [left; eauto|]. destruct (Z.eq_dec c 43) as [->|]; [right; left; eauto|]. right. right.
    split; [|intros r'; split; congruence]. cbn.
    destruct c as [|q|q]; try reflexivity. do 7 (destruct q as [q|q|]; try reflexivity; try congruence).
  Qed.
  Lemma strto_unfold s : strto base s =
    let '(neg, s2) := signOf (skipSpace s) in
    let '(v, n, rest) := scanDigits base (skipHexPrefix base s2) 0 0 in
    match n with O => (false, 0, s) | _ => (neg, v, rest) end.
  Proof. reflexivity. Qed.

  (** What is accepted in full without leading space. *)
  Lemma strto_complete s neg v : strto base s = (neg, v, []) -> match s with [] => False | c :: _ => isSpace c = false end ->
    exists sg p ds, hexPrefix base p /\ s = sg ++ p ++ ds /\ digitsIs base ds v /\ (if neg then sg = [45] else sg = [] \/ sg = [43]).
  Proof.
    rewrite strto_unfold. intros H Hs. assert (Es : skipSpace s = s). { destruct s as [|c r]; [destruct Hs|]. cbn. now rewrite Hs. }
    rewrite Es in H. destruct (signOf s) as [ng s2] eqn:Eg.
    assert (Hsg : exists sg, s = sg ++ s2 /\ (if ng then sg = [45] else sg = [] \/ sg = [43])).
    { destruct (signOf_cases s) as [(r & -> & E)|[(r & -> & E)|(E & _)]]; rewrite E in Eg; injection Eg as <- <-.
      - exists [45]. auto.
      - exists [43]. auto.
      - exists []. auto. }
    destruct Hsg as (sg & E & Hsg). destruct (scanDigits base (skipHexPrefix base s2) 0 0) as [[v' n] rest] eqn:Esc.
    destruct n as [|n]; [injection H as _ _ ->; destruct Hs|]. injection H as -> -> ->.
    apply scanDigits_spec in Esc. destruct Esc as (ds & E2 & Ha & Hv & Hk & _). rewrite app_nil_r in E2.
    destruct (skipHexPrefix_cases s2) as (p & Hp & E3). exists sg, p, ds. split; [exact Hp|]. split; [rewrite E, E3, E2; reflexivity|].
    split; [|exact Hsg]. apply digitsIs_iff; [exact Hb36|]. split; [|auto]. intros ->. cbn in Hk. discriminate.
  Qed.
  Lemma strto_sound sg p ds v : (sg = [] \/ sg = [43] \/ sg = [45]) -> hexPrefix base p -> digitsIs base ds v ->
    strto base (sg ++ p ++ ds) = (match sg with [45] => true | _ => false end, v, []).
  Proof.
    intros Hsg Hp Hd. apply digitsIs_iff in Hd; [|exact Hb36]. destruct Hd as (Hne & Ha & ->).
    assert (Hhead : forall r, skipSpace (p ++ ds) = p ++ ds /\ p ++ ds <> 45 :: r /\ p ++ ds <> 43 :: r).
    { intros r. destruct Hp as [->|[_ [->| ->]]].
      - cbn [app]. destruct ds as [|c ds']; [contradiction|]. destruct (Ha c (or_introl eq_refl)) as (d & E). apply digit_not in E; [|exact Hb36].
        destruct E as (E1 & E2 & E3 & _). cbn. rewrite E1. split; [reflexivity|]. split; congruence.
      - split; [reflexivity|]. split; discriminate.
      - split; [reflexivity|]. split; discriminate. }
    rewrite strto_unfold.
    assert (Hsk : skipSpace (sg ++ p ++ ds) = sg ++ p ++ ds). { destruct Hsg as [->|[->| ->]]; [apply (Hhead [])|reflexivity|reflexivity]. }
    rewrite Hsk.
    assert (Hso : signOf (sg ++ p ++ ds) = (match sg with [45] => true | _ => false end, p ++ ds)).
    { destruct Hsg as [->|[->| ->]]; [|reflexivity|reflexivity]. cbn [app]. destruct (signOf_cases (p ++ ds)) as [(r & E & _)|[(r & E & _)|(E & _)]].
      - exfalso. exact (proj1 (proj2 (Hhead r)) E).
      - exfalso. exact (proj2 (proj2 (Hhead r)) E).
      - rewrite E. reflexivity. }
    rewrite Hso, skipHexPrefix_prefix by assumption. rewrite scanDigits_all by assumption.
    destruct ds as [|c r]; [contradiction|]. reflexivity.
  Qed.

  Lemma unsigned_first s v : unsignedText base s v -> match s with [] => False | c :: _ => isSpace c = false end /\ startsMinus s = false.
  Proof.
    intros (sg & p & ds & [->| ->] & [->|[_ [->| ->]]] & -> & Hd); cbn [app]; try (split; reflexivity).
    apply digitsIs_iff in Hd; [|exact Hb36]. destruct Hd as (Hne & Ha & _). destruct ds as [|c r]; [contradiction|].
    destruct (Ha c (or_introl eq_refl)) as (d & E). apply digit_not in E; [|exact Hb36]. split; [tauto|].
    unfold startsMinus. destruct c as [|q|q]; try reflexivity. do 7 (destruct q as [q|q|]; try reflexivity; try (exfalso; lia)).
  Qed.
  Lemma unsigned_strto s v : unsignedText base s v -> strto base s = (false, v, []).
  Proof.
    intros (sg & p & ds & Hsg & Hp & -> & Hd). rewrite (strto_sound sg p ds v) by tauto. destruct Hsg as [->| ->]; reflexivity.
  Qed.
  Lemma digitsIs_nonneg s v : digitsIs base s v -> 0 <= v.
  Proof. induction 1 as [c d H|s v c d H IH Hc]; [now apply digitIs_nonneg in H|apply digitIs_nonneg in Hc; nia]. Qed.
  Lemma unsigned_nonneg s v : unsignedText base s v -> 0 <= v.
  Proof. intros (sg & p & ds & _ & _ & _ & H). now apply digitsIs_nonneg in H. Qed.

  Theorem cvtZToUInt64_spec s v : cvtZToUInt64 base s = Ok v <-> unsignedText base s v /\ v < two64.
  Proof.
    unfold cvtZToUInt64, zToUInt64Internal, strtoull. split.
    - destruct (strto base s) as [[neg w] rest] eqn:E.
      destruct (w <? two64) eqn:Ew.
      + unfold zValid. cbn [negb andb]. destruct s as [|c r]; [discriminate|]. destruct (isSpace c) eqn:Ec; [discriminate|]. cbn [negb andb].
        destruct rest; [|discriminate]. cbn [bind]. destruct (startsMinus (c :: r)) eqn:Em; [discriminate|]. intros H. injection H as H.
        apply strto_complete in E; [|exact Ec]. destruct E as (sg & p & ds & Hp & Es & Hd & Hsg). destruct neg.
        * subst sg. rewrite Es in Em. discriminate.
        * subst v. split; [|lia]. exists sg, p, ds. auto.
      + unfold zValid. cbn. discriminate.
    - intros [H Hv]. destruct (unsigned_first _ _ H) as [H1 H2]. rewrite (unsigned_strto _ _ H). replace (v <? two64) with true by lia.
      unfold zValid. destruct s as [|c r]; [destruct H1|]. rewrite H1. cbn [negb andb bind]. now rewrite H2.
  Qed.
  Theorem cvtZToUInt_spec s v : cvtZToUInt base s = Ok v <-> unsignedText base s v /\ v < two32.
  Proof.
    pose proof (cvtZToUInt64_spec s v) as H. unfold cvtZToUInt64, cvtZToUInt in *.
    destruct (zToUInt64Internal base s) as [w| |]; cbn [bind] in *; [|split; [discriminate|intros [A B]]|split; [discriminate|intros [A B]]].
    - destruct (startsMinus s); cbn [orb].
      + split; [discriminate|]. intros [A B]. apply H. split; [exact A|]. unfold two32, two64 in *. lia.
      + destruct (two32 - 1 <? w) eqn:E.
        * split; [discriminate|]. intros [A B]. assert (Ok w = Ok v) by (apply H; split; [exact A|unfold two32, two64 in *; lia]). injection H0 as ->. lia.
        * rewrite H. unfold two32, two64 in *. split; intros [A B]; (split; [exact A|]); [|lia].
          assert (Ok w = Ok v) by (apply H; auto). injection H0 as ->. lia.
    - assert (Err e = Ok v) by (apply H; split; [exact A|unfold two32, two64 in *; lia]). discriminate.
    - assert (UB = Ok v) by (apply H; split; [exact A|unfold two32, two64 in *; lia]). discriminate.
  Qed.

  Theorem cvtZToInt64_spec s v : cvtZToInt64 base s = Ok v <-> signedText base s v /\ - two63 <= v < two63.
  Proof.
    unfold cvtZToInt64, zToInt64Internal, strtoll. split.
    - destruct (strto base s) as [[neg w] rest] eqn:E. set (x := if neg then - w else w).
      destruct (x <? - two63) eqn:E1; [unfold zValid; cbn; discriminate|]. destruct (two63 <=? x) eqn:E2; [unfold zValid; cbn; discriminate|].
      unfold zValid. cbn [negb andb]. destruct s as [|c r]; [discriminate|]. destruct (isSpace c) eqn:Ec; [discriminate|]. cbn [negb andb].
      destruct rest; [|discriminate]. intros H. injection H as <-. split; [|lia].
      apply strto_complete in E; [|exact Ec]. destruct E as (sg & p & ds & Hp & Es & Hd & Hsg). unfold x. destruct neg.
      * right. exists p, ds, w. subst sg. auto.
      * left. exists sg, p, ds. auto.
    - intros [[H|(p & ds & w & Hp & -> & Hd & Ev)] Hv].
      + destruct (unsigned_first _ _ H) as [H1 H2]. rewrite (unsigned_strto _ _ H). replace (v <? - two63) with false by lia.
        replace (two63 <=? v) with false by lia. unfold zValid. destruct s as [|c r]; [destruct H1|]. now rewrite H1.
      + pose proof (strto_sound [45] p ds w (or_intror (or_intror eq_refl)) Hp Hd) as E. cbn [app] in E. rewrite E. cbn zeta. rewrite <- Ev.
        replace (v <? - two63) with false by lia. replace (two63 <=? v) with false by lia. reflexivity.
  Qed.
  Theorem cvtZToInt_spec s v : cvtZToInt base s = Ok v <-> signedText base s v /\ - two31 <= v < two31.
  Proof.
    pose proof (cvtZToInt64_spec s v) as H. unfold cvtZToInt64, cvtZToInt in *. unfold two31, two63 in *.
    destruct (zToInt64Internal base s) as [w| |]; cbn [bind] in *; [|split; [discriminate|intros [A B]]|split; [discriminate|intros [A B]]].
    - match goal with |- context [if ?c then Err _ else _] => destruct c eqn:E end.
      + split; [discriminate|]. intros [A B]. assert (Ok w = Ok v) by (apply H; split; [exact A|lia]). injection H0 as ->. lia.
      + rewrite H. split; intros [A B]; (split; [exact A|]); [|lia]. assert (Ok w = Ok v) by (apply H; auto). injection H0 as ->. lia.
    - assert (Err e = Ok v) by (apply H; split; [exact A|lia]). discriminate.
    - assert (UB = Ok v) by (apply H; split; [exact A|lia]). discriminate.
  Qed.

  (** * Written numbers *)
  Lemma digitText_is up d : 0 <= d < base -> digitIs (digitText up d) d.
  Proof. intros H. unfold digitText. destruct (Z.ltb_spec d 10); [constructor; lia|]. destruct up; [apply hexu|apply hexl]; lia. Qed.
  Lemma baseText_is up fuel : forall n, (0 < fuel)%nat -> 0 <= n < base ^ Z.of_nat fuel -> digitsIs base (baseText fuel up base n) n.
  Proof.
    induction fuel as [|f IH]; intros n Hf Hn; [lia|]. cbn [baseText]. destruct (Z.ltb_spec n base).
    - constructor; [apply digitText_is; lia|lia].
    - assert (Hm : 0 <= n mod base < base) by (apply Z.mod_pos_bound; lia).
      assert (E : n = (n / base) * base + n mod base) by (rewrite Z.mul_comm; apply Z.div_mod; lia).
      rewrite E at 3. constructor; [|apply digitText_is; exact Hm|lia]. rewrite Nat2Z.inj_succ, Z.pow_succ_r in Hn by lia.
      assert (Hlt : n / base < base ^ Z.of_nat f) by (apply Z.div_lt_upper_bound; lia).
      assert (Hge : 1 <= n / base) by (apply Z.div_le_lower_bound; lia).
      apply IH; [|lia]. destruct f; [cbn in Hlt; lia|lia].
  Qed.
  Lemma numText_is up n : 0 <= n < two64 -> digitsIs base (numText up base n) n.
  Proof.
    intros H. apply baseText_is; [lia|]. split; [lia|]. apply Z.lt_le_trans with (2 ^ 64); [exact (proj2 H)|].
    apply Z.pow_le_mono_l. lia.
  Qed.
  Lemma digitsIs_pad k s v : digitsIs base s v -> digitsIs base (repeat 48 k ++ s) v.
  Proof.
    rewrite !digitsIs_iff by exact Hb36. intros (H1 & H2 & ->). split; [destruct k; [exact H1|discriminate]|]. split.
    - intros c Hc. apply in_app_or in Hc. destruct Hc as [Hc|Hc]; [|auto]. apply repeat_spec in Hc. subst c. exists 0.
      apply digitVal_spec; [exact Hb36|]. split; [apply (dec 0); lia|lia].
    - rewrite valueOf_app. f_equal. induction k as [|k IH]; [reflexivity|]. cbn [repeat valueOf].
      replace (digitVal base 48) with (Some 0); [exact IH|]. symmetry. apply digitVal_spec; [exact Hb36|]. split; [apply (dec 0); lia|lia].
  Qed.
  Lemma digits_unsigned s v : digitsIs base s v -> unsignedText base s v.
  Proof. intros H. exists [], [], s. cbn. split; [now left|]. split; [now left|]. auto. Qed.

  Lemma digitsIs_inj s v w : digitsIs base s v -> digitsIs base s w -> v = w.
  Proof. rewrite !digitsIs_iff by exact Hb36. intros (_ & _ & ->) (_ & _ & ->). reflexivity. Qed.
End Strto.

Lemma intText_signed n : - two63 <= n < two63 -> signedText 10 (intText n) n.
Proof.
  intros H. unfold intText, two63 in *. destruct (Z.ltb_spec n 0).
  - right. exists [], (numText false 10 (- n)), (- n). split; [now left|]. split; [reflexivity|]. split; [|lia]. apply numText_is; unfold two64; lia.
  - left. apply digits_unsigned. apply numText_is; unfold two64; lia.
Qed.
