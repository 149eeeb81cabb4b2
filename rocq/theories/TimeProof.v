From Verif Require Import Base Str ConvertModel ExpireModel NumSpec NumModel NumProof TimeModel TimeSpec.
Open Scope Z_scope.

(** * Calendar *)

Lemma leap_spec y : yearIsLeap y = true <-> leapYear y.
Proof.
  unfold yearIsLeap, leapYear. rewrite <- !Z.mod_divide by lia. rewrite orb_true_iff, andb_true_iff, negb_true_iff, !Z.eqb_eq, Z.eqb_neq. lia.
Qed.
Lemma leap_false y : yearIsLeap y = false <-> ~ leapYear y.
Proof. rewrite <- leap_spec. destruct (yearIsLeap y); split; congruence. Qed.

Definition monthLen (y m : Z) : Z := nth (Z.to_nat (m - 1)) (daysPerMonth (yearIsLeap y)) 0.
Lemma months m : 1 <= m <= 12 -> In m [1;2;3;4;5;6;7;8;9;10;11;12].
Proof. intros H. cbn. lia. Qed.
Lemma monthLength_spec y m n : monthLength y m n <-> 1 <= m <= 12 /\ n = monthLen y m.
Proof.
  unfold monthLen. split.
  - intros H. destruct H as [m Hm|m Hm|H|H].
    + cbn in Hm. repeat (destruct Hm as [<-|Hm]; [split; [lia|destruct (yearIsLeap y); reflexivity]|]). destruct Hm.
    + cbn in Hm. repeat (destruct Hm as [<-|Hm]; [split; [lia|destruct (yearIsLeap y); reflexivity]|]). destruct Hm.
    + apply leap_spec in H. rewrite H. split; [lia|reflexivity].
    + apply leap_false in H. rewrite H. split; [lia|reflexivity].
  - intros [Hm ->]. apply months in Hm. destruct (yearIsLeap y) eqn:E; [apply leap_spec in E|apply leap_false in E]; cbn in Hm;
    repeat (destruct Hm as [<-|Hm]; [cbn; first [apply ml31; cbn; tauto|apply ml30; cbn; tauto|now apply ml29|now apply ml28]|]); destruct Hm.
Qed.
Lemma monthLen_pos y m : 1 <= m <= 12 -> 28 <= monthLen y m <= 31.
Proof. intros Hm. unfold monthLen. apply months in Hm. cbn in Hm. repeat (destruct Hm as [<-|Hm]; [destruct (yearIsLeap y); split; vm_compute; discriminate|]). destruct Hm. Qed.

Lemma datePartsValid_spec y m d : datePartsValid y m d = true <-> validDate y m d.
Proof.
  unfold datePartsValid, validDate. fold (monthLen y m). rewrite !andb_true_iff. split.
  - intros H. split; [lia|]. exists (monthLen y m). split; [apply monthLength_spec; split; [lia|reflexivity]|lia].
  - intros (H1 & n & H2 & H3). apply monthLength_spec in H2. destruct H2 as [H2 ->]. lia.
Qed.
Lemma timePartsValid_spec h mi s : timePartsValid h mi s = true <-> validTime h mi s.
Proof. unfold timePartsValid, validTime. rewrite !andb_true_iff. lia. Qed.

Definition cum (y m : Z) : Z := nth (Z.to_nat (m - 1)) (cumulativeDaysPerMonth (yearIsLeap y)) 0.
Lemma cum_next y m : 1 <= m < 12 -> cum y (m + 1) = cum y m + monthLen y m.
Proof.
  intros H. unfold cum, monthLen. assert (Hm : In m [1;2;3;4;5;6;7;8;9;10;11;12]) by (apply months; lia). cbn in Hm.
  repeat (destruct Hm as [<-|Hm]; [try lia; destruct (yearIsLeap y); reflexivity|]). destruct Hm.
Qed.
Lemma cum_bounds y m : 1 <= m <= 12 -> 0 <= cum y m <= 335.
Proof. intros Hm. unfold cum. apply months in Hm. cbn in Hm. repeat (destruct Hm as [<-|Hm]; [destruct (yearIsLeap y); split; vm_compute; discriminate|]). destruct Hm. Qed.

Definition days (y m d : Z) : Z := cum y m + d - 1 + (y - 1970) * 365 + (y - 1969) / 4 - (y - 1901) / 100 + (y - 1601) / 400.
Lemma days_year y : days (y + 1) 1 1 = days y 12 31 + 1.
Proof.
  unfold days, cum. change (Z.to_nat (12 - 1)) with 11%nat. change (Z.to_nat (1 - 1)) with 0%nat.
  replace (nth 0 (cumulativeDaysPerMonth (yearIsLeap (y + 1))) 0) with 0 by (destruct (yearIsLeap (y + 1)); reflexivity).
  unfold yearIsLeap. destruct (Z.eqb_spec (y mod 4) 0), (Z.eqb_spec (y mod 100) 0), (Z.eqb_spec (y mod 400) 0);
    cbn [negb andb orb cumulativeDaysPerMonth nth]; lia.
Qed.

Lemma dayNumber_sound y m d n : dayNumber y m d n -> validDate y m d /\ n = days y m d.
Proof.
  induction 1 as [|y m d n len H [IH ->] Hl Hd|y m n len H [IH ->] Hl Hm|y n H [IH ->]].
  - split; [|reflexivity]. split; [lia|]. exists 31. split; [|lia]. apply ml31. cbn; tauto.
  - destruct IH as (H1 & n & H2 & H3). split; [|unfold days; lia]. split; [exact H1|]. exists len. split; [exact Hl|lia].
  - apply monthLength_spec in Hl. destruct Hl as [Hl ->]. destruct IH as (H1 & _). split.
    + split; [exact H1|]. exists (monthLen y (m + 1)). split; [apply monthLength_spec; split; [lia|reflexivity]|]. pose proof (monthLen_pos y (m + 1)). lia.
    + unfold days. rewrite cum_next by lia. lia.
  - destruct IH as (H1 & _). split; [|symmetry; apply days_year]. split; [lia|]. exists 31. split; [|lia]. apply ml31. cbn; tauto.
Qed.

Lemma reach_day y m n : dayNumber y m 1 n -> 1 <= m <= 12 -> forall d, 1 <= d <= monthLen y m -> exists n', dayNumber y m d n'.
Proof.
  intros H Hm. enough (G : forall k, Z.of_nat k < monthLen y m -> exists n', dayNumber y m (1 + Z.of_nat k) n').
  { intros d Hd. destruct (G (Z.to_nat (d - 1)) ltac:(lia)) as (n' & Hn). exists n'. now replace d with (1 + Z.of_nat (Z.to_nat (d - 1))) by lia. }
  induction k as [|k IH]; intros Hk; [exists n; now rewrite Z.add_0_r|]. destruct IH as (n' & Hn); [lia|].
  exists (n' + 1). replace (1 + Z.of_nat (S k)) with (1 + Z.of_nat k + 1) by lia. apply dn_day with (monthLen y m); [exact Hn|apply monthLength_spec; split; [lia|reflexivity]|lia].
Qed.
Lemma reach_month y n : dayNumber y 1 1 n -> forall m, 1 <= m <= 12 -> exists n', dayNumber y m 1 n'.
Proof.
  intros H. enough (G : forall k, (k < 12)%nat -> exists n', dayNumber y (1 + Z.of_nat k) 1 n').
  { intros m Hm. destruct (G (Z.to_nat (m - 1)) ltac:(lia)) as (n' & Hn). exists n'. now replace m with (1 + Z.of_nat (Z.to_nat (m - 1))) by lia. }
  induction k as [|k IH]; intros Hk; [exists n; exact H|]. destruct IH as (n' & Hn); [lia|].
  destruct (reach_day _ _ _ Hn ltac:(lia) (monthLen y (1 + Z.of_nat k))) as (n2 & H2); [pose proof (monthLen_pos y (1 + Z.of_nat k)); lia|].
  exists (n2 + 1). replace (1 + Z.of_nat (S k)) with (1 + Z.of_nat k + 1) by lia. apply dn_month with (monthLen y (1 + Z.of_nat k)); [exact H2|apply monthLength_spec; split; [lia|reflexivity]|lia].
Qed.
Lemma reach_year : forall y, 1970 <= y -> exists n, dayNumber y 1 1 n.
Proof.
  enough (G : forall k, exists n', dayNumber (1970 + Z.of_nat k) 1 1 n').
  { intros m Hm. destruct (G (Z.to_nat (m - 1970))) as (n' & Hn). exists n'. now replace m with (1970 + Z.of_nat (Z.to_nat (m - 1970))) by lia. }
  induction k as [|k (n & IH)]; [exists 0; constructor|]. destruct (reach_month _ _ IH 12 ltac:(lia)) as (n2 & H2).
  destruct (reach_day _ _ _ H2 ltac:(lia) 31) as (n3 & H3).
  { unfold monthLen. destruct (yearIsLeap _); split; vm_compute; discriminate. }
  exists (n3 + 1). replace (1970 + Z.of_nat (S k)) with (1970 + Z.of_nat k + 1) by lia. now constructor.
Qed.
Lemma dayNumber_complete y m d : validDate y m d -> dayNumber y m d (days y m d).
Proof.
  intros (H1 & len & Hl & Hd). apply monthLength_spec in Hl. destruct Hl as [Hm ->].
  destruct (reach_year y H1) as (n1 & N1). destruct (reach_month _ _ N1 m Hm) as (n2 & N2). destruct (reach_day _ _ _ N2 Hm d Hd) as (n & N).
  pose proof (dayNumber_sound _ _ _ _ N) as (_ & <-). exact N.
Qed.

(** * Epoch *)

Lemma int32_ok v : - 2147483648 <= v <= 2147483647 -> int32 v = Ok v.
Proof. intros H. unfold int32, two31. match goal with |- context[if ?c then _ else _] => replace c with false by lia end. reflexivity. Qed.
Lemma int32_inv v r : int32 v = Ok r -> r = v /\ - 2147483648 <= v <= 2147483647.
Proof. unfold int32, two31. match goal with |- context[if ?c then _ else _] => destruct c eqn:E end; [discriminate|]. intros H. injection H as <-. lia. Qed.

Lemma quots y : 1970 <= y -> Z.quot (y - 1900 - 69) 4 = (y - 1969) / 4 /\ Z.quot (y - 1900 - 1) 100 = (y - 1901) / 100 /\ Z.quot (y - 1900 + 299) 400 = (y - 1601) / 400.
Proof. intros H. rewrite !Z.quot_div_nonneg by lia. repeat split; f_equal; lia. Qed.

Lemma dayOfYear_spec y m d : validDate y m d -> dayOfYear y m d = Ok (cum y m + d).
Proof. intros H. unfold dayOfYear. apply datePartsValid_spec in H. now rewrite H. Qed.
Lemma dayOfYear_bounds y m d : validDate y m d -> 1 <= cum y m + d <= 366.
Proof.
  intros (H1 & n & H2 & H3). apply monthLength_spec in H2. destruct H2 as [H2 ->]. revert H3. unfold cum, monthLen. apply months in H2. cbn in H2.
  repeat (destruct H2 as [<-|H2]; [destruct (yearIsLeap y); intros H3; match type of H3 with _ <= _ <= ?x => let v := eval vm_compute in x in change x with v in H3 end; match goal with |- _ <= ?x + _ <= _ => let v := eval vm_compute in x in change x with v end; lia|]). destruct H2.
Qed.

Lemma epoch_ok y m d h mi s tz n : validDate y m d -> validTime h mi s -> y <= 2037 -> - 86400 <= tz <= 86400 -> dayNumber y m d n ->
  epochFromParts y m d h mi s tz = Ok (n * 86400 + h * 3600 + mi * 60 + s - tz).
Proof.
  intros Hd Ht Hy Hz Hn. apply dayNumber_sound in Hn. destruct Hn as [_ ->]. pose proof (dayOfYear_bounds _ _ _ Hd) as B.
  unfold epochFromParts. rewrite (proj2 (timePartsValid_spec h mi s) Ht). rewrite (dayOfYear_spec _ _ _ Hd). cbn [bind].
  destruct Ht as (T1 & T2 & T3). destruct Hd as (Hy0 & _). destruct (quots y Hy0) as (-> & -> & ->). unfold days. set (c := cum y m) in *. clearbody c.
  assert (Q1 : 0 <= (y - 1969) / 4 <= 17) by (clear - Hy Hy0; lia). assert (Q2 : 0 <= (y - 1901) / 100 <= 1) by (clear - Hy Hy0; lia).
  assert (Q3 : 0 <= (y - 1601) / 400 <= 1) by (clear - Hy Hy0; lia).
  set (q1 := (y - 1969) / 4) in *. set (q2 := (y - 1901) / 100) in *. set (q3 := (y - 1601) / 400) in *. clearbody q1 q2 q3.
  repeat (rewrite int32_ok by lia; cbn [bind]). f_equal. lia.
Qed.
(** Whenever a result comes out, it is the right one. *)
Lemma epoch_sound y m d h mi s tz e : epochFromParts y m d h mi s tz = Ok e ->
  validDate y m d /\ validTime h mi s /\ exists n, dayNumber y m d n /\ e = n * 86400 + h * 3600 + mi * 60 + s - tz.
Proof.
  unfold epochFromParts. destruct (timePartsValid h mi s) eqn:Et; [|discriminate]. apply timePartsValid_spec in Et. unfold dayOfYear.
  destruct (datePartsValid y m d) eqn:Ed; [|discriminate]. apply datePartsValid_spec in Ed. cbn [bind]. fold (cum y m).
  pose proof (dayNumber_complete _ _ _ Ed) as Hn. destruct (quots y (proj1 Ed)) as (-> & -> & ->). intros H.
  repeat match type of H with bind (int32 ?v) _ = _ => let E := fresh in destruct (int32 v) eqn:E; [|discriminate H|discriminate H]; apply int32_inv in E; destruct E as [-> _]; cbn [bind] in H end.
  apply int32_inv in H. destruct H as [-> _]. split; [exact Ed|]. split; [exact Et|]. exists (days y m d). split; [exact Hn|]. unfold days. lia.
Qed.
Lemma epoch_invalid y m d h mi s tz : ~ (validDate y m d /\ validTime h mi s) -> epochFromParts y m d h mi s tz = Err EFormat.
Proof.
  intros H. unfold epochFromParts. destruct (timePartsValid h mi s) eqn:Et; [|reflexivity]. apply timePartsValid_spec in Et. unfold dayOfYear.
  destruct (datePartsValid y m d) eqn:Ed; [|reflexivity]. apply datePartsValid_spec in Ed. tauto.
Qed.
Lemma epoch_overflow y m d h mi s tz : validDate y m d -> validTime h mi s -> 2039 <= y -> - 86400 <= tz <= 86400 -> epochFromParts y m d h mi s tz = UB.
Proof.
  intros Hd Ht Hy Hz. pose proof (dayOfYear_bounds _ _ _ Hd) as B. unfold epochFromParts. rewrite (proj2 (timePartsValid_spec h mi s) Ht), (dayOfYear_spec _ _ _ Hd). cbn [bind].
  set (c := cum y m) in *. clearbody c. destruct Ht as (T1 & T2 & T3). repeat (rewrite int32_ok by lia; cbn [bind]).
  replace (int32 ((y - 1900 - 70) * 31536000)) with (@UB Z); [reflexivity|]. unfold int32, two31.
  match goal with |- context[if ?c then _ else _] => replace c with true by lia end. reflexivity.
Qed.

(** * Text *)

Lemma timePart_spec s v : s <> [] -> (timePart s = Some v <-> digitsIs 10 s v).
Proof.
  intros Hne.
  assert (G : forall s v, timePart s = Some v <-> (forall c, In c s -> exists d, digitVal 10 c = Some d) /\ v = valueOf 10 s 0).
  { clear. assert (A : forall s acc, valueOf 10 s acc = acc * 10 ^ Z.of_nat (length s) + valueOf 10 s 0).
    { induction s as [|c s IH]; intros acc; cbn [valueOf length]; [cbn; lia|]. set (d := match digitVal 10 c with Some d => d | None => 0 end).
      rewrite (IH (acc * 10 + d)), (IH (0 * 10 + d)). rewrite Nat2Z.inj_succ, Z.pow_succ_r by lia. ring. }
    induction s as [|c s IH]; intros v; cbn [timePart valueOf].
    - split; [intros H; injection H as <-; split; [intros c []|reflexivity]|intros [_ ->]; reflexivity].
    - unfold isDigit. assert (E : digitVal 10 c = if (48 <=? c) && (c <=? 57) then Some (c - 48) else None).
      { unfold digitVal. destruct ((48 <=? c) && (c <=? 57)) eqn:E1; [now replace (c - 48 <? 10) with true by lia|].
        destruct ((97 <=? c) && (c <=? 122)) eqn:E2; [now replace (c - 87 <? 10) with false by lia|]. destruct ((65 <=? c) && (c <=? 90)) eqn:E3; [now replace (c - 55 <? 10) with false by lia|reflexivity]. }
      rewrite E. destruct ((48 <=? c) && (c <=? 57)) eqn:E1.
      + destruct (timePart s) as [w|] eqn:Ew.
        * destruct (proj1 (IH w) eq_refl) as [I1 I2]. split.
          -- intros H. injection H as <-. split; [intros x [<-|Hx]; [rewrite E; eauto|auto]|]. rewrite (A s (0 * 10 + (c - 48))). rewrite I2. reflexivity.
          -- intros [_ ->]. rewrite (A s (0 * 10 + (c - 48))). rewrite I2. reflexivity.
        * split; [discriminate|]. intros [H _]. exfalso. enough (None = Some (valueOf 10 s 0)) by discriminate. apply IH. split; [intros x Hx; apply H; now right|reflexivity].
      + split; [discriminate|]. intros [H _]. destruct (H c (or_introl eq_refl)) as (d & Hd). congruence. }
  rewrite G. rewrite digitsIs_iff by lia. unfold allDigits. tauto.
Qed.

Lemma part_spec s off n v : (0 < n)%nat -> (off + n <= length s)%nat -> (zToTimePart s off n = Ok v <-> digits n (firstn n (skipn off s)) v).
Proof.
  intros Hn Hl. unfold zToTimePart, digits. assert (L : length (firstn n (skipn off s)) = n) by (rewrite firstn_length, skipn_length; lia).
  rewrite <- timePart_spec by (intros E; rewrite E in L; cbn in L; lia). destruct (timePart (firstn n (skipn off s))) as [w|]; split; intros H.
  - injection H as ->. auto.
  - destruct H as [_ H]. congruence.
  - discriminate.
  - destruct H as [_ H]. discriminate.
Qed.
Lemma part_err s off n : forall e, zToTimePart s off n = Err e -> e = EFormat.
Proof. intros e. unfold zToTimePart. destruct (timePart _); congruence. Qed.
Lemma part_not_ub s off n : zToTimePart s off n <> UB.
Proof. unfold zToTimePart. destruct (timePart _); congruence. Qed.

Lemma firstn_skipn_app (a b c : str) n m : length a = n -> length b = m -> firstn m (skipn n (a ++ b ++ c)) = b.
Proof.
  intros <- <-. rewrite skipn_app, Nat.sub_diag, skipn_O, skipn_all2 by lia. cbn [app]. rewrite firstn_app, Nat.sub_diag, firstn_O, app_nil_r. now apply firstn_all2.
Qed.
Lemma charAt_app (a b : str) n : length a = n -> charAt (a ++ b) n = charAt b 0.
Proof. intros <-. unfold charAt. rewrite app_nth2 by lia. now rewrite Nat.sub_diag. Qed.

(** Splitting off the first 19 characters. *)
Definition dateShape (s : str) : bool :=
  negb ((length s <? 19)%nat || negb (charAt s 4 =? 45) || negb (charAt s 7 =? 45) || negb (charAt s 10 =? 32) || negb (charAt s 13 =? 58)
     || negb (charAt s 16 =? 58)).

Lemma split_at (s : str) n : (n <= length s)%nat -> exists a b, s = a ++ b /\ length a = n.
Proof. intros H. exists (firstn n s), (skipn n s). split; [symmetry; apply firstn_skipn|]. rewrite firstn_length. lia. Qed.

Definition parts6 (s : str) : res (Z * Z * Z * Z * Z * Z) :=
  let* year := zToTimePart s 0 4 in
  let* month := zToTimePart s 5 2 in
  let* day := zToTimePart s 8 2 in
  let* hour := zToTimePart s 11 2 in
  let* minute := zToTimePart s 14 2 in
  let* second := zToTimePart s 17 2 in
  Ok (year, month, day, hour, minute, second).

Ltac explode s n :=
  match n with
  | O => idtac
  | S ?k => destruct s as [|? s]; [exfalso; cbn [length] in *; lia|]; explode s k
  end.

Lemma head_spec s y m d h mi se :
  dateShape s = true /\ parts6 s = Ok (y, m, d, h, mi, se) <->
  exists r, s = firstn 19 s ++ r /\ length (firstn 19 s) = 19%nat /\ dateTimeText (firstn 19 s) y m d h mi se.
Proof.
  split.
  - intros [Hs Hp]. assert (Hl : (19 <= length s)%nat) by (unfold dateShape in Hs; lia). exists (skipn 19 s). split; [symmetry; apply firstn_skipn|].
    split; [rewrite firstn_length; lia|]. unfold parts6 in Hp.
    destruct (zToTimePart s 0 4) as [v1| |] eqn:E1; try discriminate Hp. destruct (zToTimePart s 5 2) as [v2| |] eqn:E2; try discriminate Hp.
    destruct (zToTimePart s 8 2) as [v3| |] eqn:E3; try discriminate Hp. destruct (zToTimePart s 11 2) as [v4| |] eqn:E4; try discriminate Hp.
    destruct (zToTimePart s 14 2) as [v5| |] eqn:E5; try discriminate Hp. destruct (zToTimePart s 17 2) as [v6| |] eqn:E6; try discriminate Hp.
    injection Hp as -> -> -> -> -> ->. apply part_spec in E1, E2, E3, E4, E5, E6; try lia.
    explode s 19%nat. cbn [firstn skipn] in E1, E2, E3, E4, E5, E6 |- *. unfold dateShape, charAt in Hs. cbn [nth] in Hs.
    rewrite negb_true_iff, !orb_false_iff, !negb_false_iff, !Z.eqb_eq in Hs. destruct Hs as (((((_ & ->) & ->) & ->) & ->) & ->).
    eexists _, _, _, _, _, _. split; [|repeat (split; [eassumption|]); eassumption]. reflexivity.
  - intros (r & Hs & Hl & sy & sm & sd & sh & smi & sse & E & (L1 & D1) & (L2 & D2) & (L3 & D3) & (L4 & D4) & (L5 & D5) & (L6 & D6)).
    rewrite E in Hs. clear E Hl.
    explode sy 4%nat; destruct sy; [|cbn in L1; lia]. explode sm 2%nat; destruct sm; [|cbn in L2; lia]. explode sd 2%nat; destruct sd; [|cbn in L3; lia].
    explode sh 2%nat; destruct sh; [|cbn in L4; lia]. explode smi 2%nat; destruct smi; [|cbn in L5; lia]. explode sse 2%nat; destruct sse; [|cbn in L6; lia].
    cbn [app] in Hs. rewrite Hs. split; [reflexivity|]. unfold parts6.
    repeat match goal with |- context[zToTimePart ?l ?o ?n] =>
      let v := match o with 0%nat => y | 5%nat => m | 8%nat => d | 11%nat => h | 14%nat => mi | 17%nat => se end in
      replace (zToTimePart l o n) with (@Ok Z v) by (symmetry; apply part_spec; [lia|cbn [length]; lia|cbn [firstn skipn]; split; [reflexivity|eassumption]]) end.
    reflexivity.
Qed.

Definition afterFraction (part : str) : str :=
  if ((charAt part 0 =? 46) || (charAt part 0 =? 44)) && (2 <=? length part)%nat then skipDigits (skipn 1 part) else part.
Definition hasZone (p : str) : bool := ((charAt p 0 =? 43) || (charAt p 0 =? 45)) && (3 <=? length p)%nat.
Definition zone (part1 : str) : res (Z * Z) :=
  let* h := zToTimePart part1 1 2 in
  let offsetHour := h * (if charAt part1 0 =? 45 then -1 else 1) in
  let part2 := skipn 3 part1 in
  let part3 := if charAt part2 0 =? 58 then skipn 1 part2 else part2 in
  let* (offsetMinute, part4) :=
    (if Nat.eqb (length part3) 2 then let* m := zToTimePart part3 0 2 in Ok (m, []) else Ok (0, part3)) in
  if negb (Nat.eqb (length part4) 0) then Err EFormat else Ok (offsetHour, offsetMinute).

Lemma cvtZToTime_eq s : cvtZToTime s =
  if dateShape s then
    let* (year, month, day, hour, minute, second) := parts6 s in
    if datePartsValid year month day && timePartsValid hour minute second then
      let p := afterFraction (skipn 19 s) in
      if hasZone p then
        let* (oh, om) := zone p in
        let* tz := tzOffsetSeconds oh om in
        let* e := epochFromParts year month day hour minute second tz in Ok (TEpoch e)
      else if Nat.eqb (length p) 0 then Ok (TLocal year month day hour minute second) else Err EFormat
    else Err EFormat
  else Err EFormat.
Proof.
  unfold cvtZToTime, dateShape, parts6, zone. destruct (_ || _); [reflexivity|]. cbn [negb].
  destruct (zToTimePart s 0 4); cbn [bind]; try reflexivity. destruct (zToTimePart s 5 2); cbn [bind]; try reflexivity.
  destruct (zToTimePart s 8 2); cbn [bind]; try reflexivity. destruct (zToTimePart s 11 2); cbn [bind]; try reflexivity.
  destruct (zToTimePart s 14 2); cbn [bind]; try reflexivity. destruct (zToTimePart s 17 2); cbn [bind]; try reflexivity.
  destruct (datePartsValid a a0 a1); cbn [negb andb]; [|reflexivity]. destruct (timePartsValid a2 a3 a4); cbn [negb]; [|reflexivity].
  cbv zeta. fold (afterFraction (skipn 19 s)). set (p := afterFraction (skipn 19 s)). fold (hasZone p). destruct (hasZone p).
  - destruct (zToTimePart p 1 2); cbn [bind]; try reflexivity.
    set (p3 := if charAt (skipn 3 p) 0 =? 58 then skipn 1 (skipn 3 p) else skipn 3 p). destruct (Nat.eqb (length p3) 2).
    + destruct (zToTimePart p3 0 2); reflexivity.
    + cbn [bind]. destruct (Nat.eqb (length p3) 0); reflexivity.
  - now destruct (Nat.eqb (length p) 0).
Qed.

Lemma skipDigits_split s : exists ds, s = ds ++ skipDigits s /\ Forall (fun x => 48 <= x <= 57) ds.
Proof.
  induction s as [|c s (ds & E & F)]; [exists []; split; [reflexivity|constructor]|]. cbn [skipDigits]. unfold isDigit. destruct ((48 <=? c) && (c <=? 57)) eqn:E1.
  - exists (c :: ds). split; [cbn; now rewrite <- E|]. constructor; [lia|exact F].
  - exists []. split; [reflexivity|constructor].
Qed.
Lemma skipDigits_app ds r : Forall (fun x => 48 <= x <= 57) ds -> match r with [] => True | c :: _ => isDigit c = false end -> skipDigits (ds ++ r) = r.
Proof.
  induction 1 as [|c ds Hc Hd IH]; intros Hr; cbn [app skipDigits].
  - destruct r as [|c r]; [reflexivity|]. cbn. now rewrite Hr.
  - unfold isDigit. replace ((48 <=? c) && (c <=? 57)) with true by lia. auto.
Qed.
Lemma afterFraction_sound part : exists f, part = f ++ afterFraction part /\ fractionText f (afterFraction part).
Proof.
  unfold afterFraction. destruct (_ && _) eqn:E.
  - destruct part as [|c part]; [cbn in E; lia|]. cbn [skipn]. destruct (skipDigits_split part) as (ds & E1 & E2). exists (c :: ds). split; [cbn; now rewrite <- E1|].
    right. exists c, ds. split; [unfold charAt in E; cbn [nth] in E; lia|]. split; [reflexivity|]. split; [exact E2|]. rewrite <- E1. intros ->. cbn in E. lia.
  - exists []. split; [reflexivity|]. now left.
Qed.
Lemma afterFraction_complete f r : fractionText f r -> match r with [] => True | c :: _ => isDigit c = false /\ c <> 46 /\ c <> 44 end -> afterFraction (f ++ r) = r.
Proof.
  intros Hf Hr. unfold afterFraction. destruct Hf as [->|(c & ds & Hc & -> & Hd & Hne)].
  - cbn [app]. destruct r as [|c r]; [reflexivity|]. unfold charAt. cbn [nth]. replace ((c =? 46) || (c =? 44)) with false by lia. reflexivity.
  - cbn [app]. unfold charAt. cbn [nth length skipn]. replace ((c =? 46) || (c =? 44)) with true by lia.
    assert (length (ds ++ r) <> 0%nat) by (destruct (ds ++ r); [congruence|discriminate]). replace (2 <=? S (length (ds ++ r)))%nat with true by lia. cbn [andb].
    apply skipDigits_app; [exact Hd|]. destruct r; tauto.
Qed.

Lemma digits2_first s v : digits 2 s v -> exists a b, s = [a; b] /\ 48 <= a <= 57.
Proof.
  intros [L D]. destruct s as [|a [|b [|]]]; try discriminate L. exists a, b. split; [reflexivity|]. apply digitsIs_iff in D; [|lia]. destruct D as (_ & D & _).
  destruct (D a (or_introl eq_refl)) as (x & E). apply digitVal_spec in E; [|lia]. destruct E as [E Hx]. inversion E; subst; lia.
Qed.

Lemma zone_spec p oh om : hasZone p = true /\ zone p = Ok (oh, om) <-> exists sign hh, zoneText p sign hh om /\ oh = sign * hh.
Proof.
  unfold hasZone, zone. split.
  - intros [Hh Hz]. destruct p as [|c [|a [|b p]]]; try (cbn in Hh; lia). unfold charAt in Hh, Hz. cbn [nth skipn length] in Hh, Hz.
    destruct (zToTimePart (c :: a :: b :: p) 1 2) as [h| |] eqn:E1; try discriminate Hz. apply part_spec in E1; [|lia|cbn [length]; lia]. cbn [firstn skipn] in E1. cbn [bind] in Hz.
    exists (if c =? 45 then -1 else 1), h. set (p3 := if nth 0 p 0 =? 58 then match p with [] => [] | _ :: l => l end else p) in *.
    assert (Ep : exists sep, p = sep ++ p3 /\ (sep = [] \/ sep = [58])).
    { unfold p3. destruct (Z.eqb_spec (nth 0 p 0) 58) as [E|E]; [|exists []; auto]. destruct p as [|x p]; [discriminate E|]. cbn in E. subst x. exists [58]. auto. }
    destruct Ep as (sep & Ep & Hsep). clearbody p3.
    assert (Hm : oh = h * (if c =? 45 then -1 else 1) /\ (digits 2 p3 om \/ p3 = [] /\ om = 0)).
    { destruct (Nat.eqb (length p3) 2) eqn:L; [apply Nat.eqb_eq in L|apply Nat.eqb_neq in L].
      - destruct (zToTimePart p3 0 2) as [mm| |] eqn:E2; try discriminate Hz. apply part_spec in E2; [|lia|lia]. cbn [skipn] in E2. rewrite firstn_all2 in E2 by lia.
        cbn in Hz. injection Hz as <- <-. auto.
      - cbn [bind] in Hz. destruct p3; [|discriminate Hz]. cbn in Hz. injection Hz as <- <-. auto. }
    destruct Hm as [-> Hm]. split; [|ring]. exists c, [a;b], sep, p3. split; [destruct (Z.eqb_spec c 45); lia|]. split; [cbn; now rewrite Ep|]. auto.
  - intros (sign & hh & (c & sh & sep & smm & Hc & -> & Hsh & Hsep & Hmm) & ->).
    destruct (digits2_first _ _ Hsh) as (a & b & -> & _). cbn [app]. unfold charAt. cbn [nth length]. split; [lia|].
    rewrite (proj2 (part_spec (c :: a :: b :: sep ++ smm) 1 2 hh ltac:(lia) ltac:(cbn [length]; lia))) by exact Hsh. cbn [bind].
    assert (E3 : (if nth 0 (sep ++ smm) 0 =? 58 then skipn 1 (sep ++ smm) else sep ++ smm) = smm).
    { destruct Hsep as [->| ->]; [|reflexivity]. cbn [app]. destruct Hmm as [Hm|[-> _]]; [|reflexivity]. destruct (digits2_first _ _ Hm) as (x & z & -> & Hx). cbn [nth].
      now replace (x =? 58) with false by lia. }
    change (skipn 3 (c :: a :: b :: sep ++ smm)) with (sep ++ smm). rewrite E3. assert (Es : hh * (if c =? 45 then -1 else 1) = sign * hh) by (destruct (Z.eqb_spec c 45); destruct Hc as [[? ->]|[? ->]]; lia). rewrite Es.
    destruct Hmm as [Hm|[-> ->]]; [|reflexivity]. assert (L := proj1 Hm). rewrite L. cbn [Nat.eqb].
    rewrite (proj2 (part_spec smm 0 2 om ltac:(lia) ltac:(lia))); [reflexivity|]. cbn [skipn]. now rewrite firstn_all2 by lia.
Qed.

Definition accepted (s : str) (y m d h mi se : Z) (r : timeResult) : Prop :=
  exists dt f, dateTimeText dt y m d h mi se /\ validDate y m d /\ validTime h mi se /\
   ((s = dt ++ f /\ fractionText f [] /\ r = TLocal y m d h mi se) \/
    (exists z sign hh mm tz e, s = dt ++ f ++ z /\ fractionText f z /\ zoneText z sign hh mm /\
       tzOffsetSeconds (sign * hh) mm = Ok tz /\ epochFromParts y m d h mi se tz = Ok e /\ r = TEpoch e)).

Lemma dateTimeText_length dt y m d h mi se : dateTimeText dt y m d h mi se -> length dt = 19%nat.
Proof. intros (sy & sm & sd & sh & smi & sse & -> & (L1 & _) & (L2 & _) & (L3 & _) & (L4 & _) & (L5 & _) & (L6 & _)). rewrite !app_length. cbn [length]. lia. Qed.

Lemma cvtZToTime_spec s r : cvtZToTime s = Ok r <-> exists y m d h mi se, accepted s y m d h mi se r.
Proof.
  rewrite cvtZToTime_eq. split.
  - destruct (dateShape s) eqn:Es; [|discriminate]. destruct (parts6 s) as [[[[[[y m] d] h] mi] se]| |] eqn:Ep; try discriminate. cbn [bind].
    destruct (datePartsValid y m d) eqn:Ed; [|discriminate]. destruct (timePartsValid h mi se) eqn:Et; [|discriminate]. cbn [andb].
    apply datePartsValid_spec in Ed. apply timePartsValid_spec in Et.
    destruct (proj1 (head_spec s y m d h mi se) (conj Es Ep)) as (r0 & Er & El & Hd). cbv zeta.
    destruct (afterFraction_sound (skipn 19 s)) as (f & Ef & Hf). set (p := afterFraction (skipn 19 s)) in *.
    assert (Esp : s = firstn 19 s ++ f ++ p) by (rewrite <- Ef; symmetry; apply firstn_skipn).
    intros H. exists y, m, d, h, mi, se, (firstn 19 s), f. split; [exact Hd|]. split; [exact Ed|]. split; [exact Et|].
    destruct (hasZone p) eqn:Ez.
    + right. destruct (zone p) as [[oh om]| |] eqn:Eo; try discriminate H. cbn [bind] in H. destruct (tzOffsetSeconds oh om) as [tz| |] eqn:Etz; try discriminate H. cbn [bind] in H.
      destruct (epochFromParts y m d h mi se tz) as [e| |] eqn:Ee; try discriminate H. injection H as <-.
      destruct (proj1 (zone_spec p oh om) (conj Ez Eo)) as (sign & hh & Hz & ->). exists p, sign, hh, om, tz, e. auto 10.
    + left. destruct (Nat.eqb (length p) 0) eqn:L; [|discriminate H]. injection H as <-. destruct p; [|discriminate L]. rewrite app_nil_r in Esp. auto.
  - intros (y & m & d & h & mi & se & dt & f & Hd & Hv & Ht & Hcase). pose proof (dateTimeText_length _ _ _ _ _ _ _ Hd) as Ld.
    assert (Hr : exists rest, s = dt ++ rest) by (destruct Hcase as [[-> _]|(z & ? & ? & ? & ? & ? & -> & _)]; eauto). destruct Hr as (rest & Er).
    assert (Ef : firstn 19 s = dt) by (rewrite Er, firstn_app, Ld, Nat.sub_diag, firstn_O, app_nil_r; apply firstn_all2; lia).
    assert (Ek : skipn 19 s = rest) by (rewrite Er, skipn_app, Ld, Nat.sub_diag, skipn_O, skipn_all2 by lia; reflexivity).
    destruct (proj2 (head_spec s y m d h mi se)) as [Es Ep]; [exists rest; rewrite Ef; auto|].
    rewrite Es, Ep. cbn [bind]. rewrite (proj2 (datePartsValid_spec y m d) Hv), (proj2 (timePartsValid_spec h mi se) Ht). cbn [andb]. cbv zeta. rewrite Ek.
    destruct Hcase as [(E & Hf & ->)|(z & sign & hh & mm & tz & e & E & Hf & Hz & Etz & Ee & ->)].
    + rewrite E in Er. apply app_inv_head in Er. subst rest. pose proof (afterFraction_complete f [] Hf I) as A. rewrite app_nil_r in A. rewrite A. reflexivity.
    + rewrite E in Er. apply app_inv_head in Er. subst rest. rewrite (afterFraction_complete f z Hf).
      2:{ destruct Hz as (c & ? & ? & ? & Hc & -> & _). unfold isDigit. lia. }
      destruct (proj2 (zone_spec z (sign * hh) mm)) as [Ez Eo]; [eauto|]. rewrite Ez, Eo. cbn [bind]. rewrite Etz. cbn [bind]. now rewrite Ee.
Qed.

(** * Zones *)

Lemma tz_spec sign hh mm tz : (sign = 1 \/ sign = -1) -> 0 <= hh -> ~ (sign = -1 /\ hh = 0 /\ mm <> 0) ->
  (tzOffsetSeconds (sign * hh) mm = Ok tz <-> zoneOk sign hh mm /\ tz = zoneSeconds sign hh mm).
Proof.
  intros Hs Hh Hn. unfold tzOffsetSeconds, zoneSeconds. 
  assert (V : tzPartsValid (sign * hh) mm = true <-> zoneOk sign hh mm).
  { unfold tzPartsValid, zoneOk. rewrite <- Z.mod_divide by lia. rewrite !orb_true_iff, !andb_true_iff. lia. }
  destruct (tzPartsValid (sign * hh) mm) eqn:E.
  - assert (Hok : zoneOk sign hh mm) by now apply V. assert (Ev : (if sign * hh <? 0 then -1 * (- (sign * hh) * 3600 + mm * 60) else sign * hh * 3600 + mm * 60) = sign * (hh * 3600 + mm * 60)).
    { clear - Hs Hh Hn. destruct (Z.ltb_spec (sign * hh) 0); destruct Hs as [->| ->]; lia. }
    rewrite Ev. split; [intros H; injection H as <-; auto|intros [_ ->]; reflexivity].
  - split; [discriminate|]. intros [H _]. apply V in H. discriminate.
Qed.
Lemma zoneText_facts z sign hh mm : zoneText z sign hh mm -> (sign = 1 \/ sign = -1) /\ 0 <= hh < 100 /\ 0 <= mm < 100.
Proof.
  assert (G : forall s v, digits 2 s v -> 0 <= v < 100).
  { intros s v [L D]. destruct s as [|a [|b [|]]]; try discriminate L. apply digitsIs_iff in D; [|lia]. destruct D as (_ & D & ->). cbn.
    destruct (D a (or_introl eq_refl)) as (x & Ea). destruct (D b (or_intror (or_introl eq_refl))) as (w & Eb). rewrite Ea, Eb.
    apply digitVal_spec in Ea; [|lia]. apply digitVal_spec in Eb; [|lia]. destruct Ea as [Ea ?], Eb as [Eb ?]. apply digitIs_nonneg in Ea, Eb. lia. }
  intros (c & sh & sep & smm & Hc & _ & Hsh & _ & Hm). split; [lia|]. split; [eauto|]. destruct Hm as [Hm|[_ ->]]; [eauto|lia].
Qed.

Lemma time_exact s e y m d h mi se dt f z sign hh mm n :
  dateTimeText dt y m d h mi se -> fractionText f z -> zoneText z sign hh mm -> s = dt ++ f ++ z ->
  y <= 2037 -> ~ (sign = -1 /\ hh = 0 /\ mm <> 0) -> dayNumber y m d n ->
  (cvtZToTime s = Ok (TEpoch e) <-> validTime h mi se /\ zoneOk sign hh mm /\ e = n * 86400 + h * 3600 + mi * 60 + se - zoneSeconds sign hh mm).
Proof.
  intros Hd Hf Hz Es Hy Hn Hdn. pose proof (zoneText_facts _ _ _ _ Hz) as (Hs & Hh & Hm). pose proof (dayNumber_sound _ _ _ _ Hdn) as (Hv & _).
  assert (Hb : zoneOk sign hh mm -> - 86400 <= zoneSeconds sign hh mm <= 86400).
  { unfold zoneOk, zoneSeconds. intros H. destruct Hs as [->| ->]; lia. }
  split.
  - intros H. assert (Ht : validTime h mi se /\ exists tz, tzOffsetSeconds (sign * hh) mm = Ok tz /\ epochFromParts y m d h mi se tz = Ok e).
    { rewrite cvtZToTime_eq in H. pose proof (dateTimeText_length _ _ _ _ _ _ _ Hd) as Ld.
      assert (Ef : firstn 19 s = dt) by (rewrite Es, firstn_app, Ld, Nat.sub_diag, firstn_O, app_nil_r; apply firstn_all2; lia).
      assert (Ek : skipn 19 s = f ++ z) by (rewrite Es, skipn_app, Ld, Nat.sub_diag, skipn_O, skipn_all2 by lia; reflexivity).
      destruct (proj2 (head_spec s y m d h mi se)) as [Esh Ep]; [exists (f ++ z); rewrite Ef; auto|]. rewrite Esh, Ep in H. cbn [bind] in H.
      destruct (timePartsValid h mi se) eqn:Et; [|now rewrite andb_false_r in H]. apply timePartsValid_spec in Et. split; [exact Et|].
      rewrite (proj2 (datePartsValid_spec y m d) Hv) in H. cbn [andb] in H. cbv zeta in H. rewrite Ek, (afterFraction_complete f z Hf) in H.
      2:{ destruct Hz as (c & ? & ? & ? & Hc & -> & _). unfold isDigit. lia. }
      destruct (proj2 (zone_spec z (sign * hh) mm)) as [Ez Eo]; [eauto|]. rewrite Ez, Eo in H. cbn [bind] in H.
      destruct (tzOffsetSeconds (sign * hh) mm) as [tz| |] eqn:Etz; try discriminate H. cbn [bind] in H. exists tz. split; [reflexivity|].
      destruct (epochFromParts y m d h mi se tz); try discriminate H. now injection H as ->. }
    destruct Ht as (Ht & tz & E1 & E2). apply tz_spec in E1; [|exact Hs|lia|exact Hn]. destruct E1 as [E1 ->]. split; [exact Ht|]. split; [exact E1|].
    rewrite (epoch_ok y m d h mi se _ n) in E2 by auto. now injection E2 as <-.
  - intros (Ht & Hok & ->). apply cvtZToTime_spec. exists y, m, d, h, mi, se, dt, f. split; [exact Hd|]. split; [exact Hv|]. split; [exact Ht|]. right.
    exists z, sign, hh, mm, (zoneSeconds sign hh mm), (n * 86400 + h * 3600 + mi * 60 + se - zoneSeconds sign hh mm). split; [exact Es|]. split; [exact Hf|]. split; [exact Hz|].
    split; [apply tz_spec; auto; lia|]. split; [apply epoch_ok; auto|reflexivity].
Qed.
