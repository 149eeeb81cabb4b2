From Verif Require Import Base Str ConvertModel NumModel NumSpec NumProof LsnModel LsnSpec.
From Coq Require Import Sorted.
Open Scope Z_scope.

(** * Fixed width hex *)

Fixpoint fixedHex (k : nat) (n : Z) : str :=
  match k with O => [] | S k' => fixedHex k' (n / 16) ++ [digitText true (n mod 16)] end.

Lemma fixedHex_length k n : length (fixedHex k n) = k.
Proof. revert n; induction k as [|k IH]; intros n; cbn; [reflexivity|]. rewrite app_length, IH. cbn. lia. Qed.

Lemma digitText_zero : digitText true 0 = 48. Proof. reflexivity. Qed.
Lemma fixedHex_zero k : fixedHex k 0 = repeat 48 k.
Proof.
  induction k as [|k IH]; [reflexivity|]. cbn [fixedHex]. change (0 / 16) with 0. change (0 mod 16) with 0. rewrite IH, digitText_zero.
  symmetry. apply (repeat_cons k 48).
Qed.

Lemma baseText_fixed fuel : forall k n, (k <= fuel)%nat -> (0 < k)%nat -> 0 <= n < 16 ^ Z.of_nat k ->
  padText k (baseText fuel true 16 n) = fixedHex k n.
Proof.
  induction fuel as [|f IH]; intros k n Hk Hk0 Hn; [lia|]. destruct k as [|k]; [lia|]. cbn [baseText fixedHex].
  destruct (Z.ltb_spec n 16) as [L|L].
  - rewrite Z.div_small, Z.mod_small by lia. rewrite fixedHex_zero. unfold padText. cbn [length]. now rewrite Nat.sub_0_r || (replace (S k - 1)%nat with k by lia).
  - rewrite Nat2Z.inj_succ, Z.pow_succ_r in Hn by lia.
    assert (Hq : 0 <= n / 16 < 16 ^ Z.of_nat k). { split; [apply Z.div_pos; lia|apply Z.div_lt_upper_bound; lia]. }
    assert (H1 : 1 <= n / 16) by (apply Z.div_le_lower_bound; lia).
    destruct k as [|k]; [cbn in Hq; lia|].
    rewrite <- (IH (S k) (n / 16)) by lia. unfold padText. rewrite app_length. cbn [length].
    rewrite app_assoc. f_equal. f_equal. f_equal. lia.
Qed.

Lemma hex8_fixed n : 0 <= n < two32 -> hex8 n = fixedHex 8 n.
Proof. intros H. apply baseText_fixed; [lia|lia|exact H]. Qed.

Lemma hex8_length n : 0 <= n < two32 -> length (hex8 n) = 8%nat.
Proof. intros H. rewrite hex8_fixed by exact H. apply fixedHex_length. Qed.

Lemma digitText_upper d : 0 <= d < 16 -> upperHex (digitText true d).
Proof. intros H. unfold digitText, upperHex. destruct (Z.ltb_spec d 10); lia. Qed.
Lemma fixedHex_upper k : forall n, Forall upperHex (fixedHex k n).
Proof.
  induction k as [|k IH]; intros n; cbn [fixedHex]; [constructor|]. apply Forall_app. split; [apply IH|]. constructor; [|constructor].
  apply digitText_upper. apply Z.mod_pos_bound. lia.
Qed.
Lemma hex8_is n : 0 <= n < two32 -> hex8Is (hex8 n) n.
Proof.
  intros H. split; [now apply hex8_length|]. split; [rewrite hex8_fixed by exact H; apply fixedHex_upper|].
  apply (digitsIs_pad 16); [lia|]. apply numText_is; [lia|]. unfold two32, two64 in *. lia.
Qed.

(** The text is determined by the value. *)
Lemma digitIs_upper c d : upperHex c -> digitIs c d -> d < 16 -> c = digitText true d.
Proof.
  intros Hc Hd Hl. unfold digitText. unfold upperHex in Hc. destruct Hd as [d H|d H|d H].
  - replace (d <? 10) with true by lia. reflexivity.
  - lia.
  - replace (d <? 10) with false by lia. reflexivity.
Qed.
Lemma digitsIs_fixed s n : digitsIs 16 s n -> Forall upperHex s -> s = fixedHex (length s) n.
Proof.
  induction 1 as [c d Hc Hd|s v c d H IH Hc Hd]; intros Hf.
  - cbn [length fixedHex app]. inversion Hf; subst. pose proof (digitIs_nonneg _ _ Hc). rewrite Z.mod_small by lia. f_equal. now apply digitIs_upper.
  - apply Forall_app in Hf. destruct Hf as [Hf1 Hf2]. inversion Hf2; subst. rewrite app_length. cbn [length]. rewrite Nat.add_1_r. cbn [fixedHex].
    pose proof (digitIs_nonneg _ _ Hc). replace ((v * 16 + d) / 16) with v by (apply Z.div_unique with d; lia).
    replace ((v * 16 + d) mod 16) with d by (apply Z.mod_unique with v; lia). rewrite <- (IH Hf1). f_equal. f_equal. now apply digitIs_upper.
Qed.
Lemma fixedHex_value k n : (0 < k)%nat -> 0 <= n < 16 ^ Z.of_nat k -> digitsIs 16 (fixedHex k n) n.
Proof.
  revert n; induction k as [|k IH]; intros n Hk Hn; [lia|]. rewrite Nat2Z.inj_succ, Z.pow_succ_r in Hn by lia. cbn [fixedHex].
  assert (Hm : 0 <= n mod 16 < 16) by (apply Z.mod_pos_bound; lia).
  assert (Hd : digitIs (digitText true (n mod 16)) (n mod 16)) by (apply (digitText_is 16); lia).
  destruct k as [|k].
  - cbn in Hn |- *. rewrite (Z.mod_small n 16) in * by lia. constructor; [exact Hd|lia].
  - rewrite (Z.div_mod n 16) at 3 by lia. rewrite Z.mul_comm. constructor; [|exact Hd|lia]. apply IH; [lia|].
    split; [apply Z.div_pos; lia|apply Z.div_lt_upper_bound; lia].
Qed.
Lemma hex8Is_eq s n : hex8Is s n -> s = fixedHex 8 n.
Proof. intros (H1 & H2 & H3). rewrite <- H1. now apply digitsIs_fixed. Qed.
Lemma hex8Is_range s n : hex8Is s n -> 0 <= n < two32.
Proof.
  intros (H1 & H2 & H3). assert (G : forall s n, digitsIs 16 s n -> 0 <= n < 16 ^ Z.of_nat (length s)).
  { clear. induction 1 as [c d Hc Hd|s v c d H IH Hc Hd].
    - apply digitIs_nonneg in Hc. cbn. lia.
    - apply digitIs_nonneg in Hc. rewrite app_length. cbn [length]. rewrite Nat.add_1_r, Nat2Z.inj_succ, Z.pow_succ_r by lia. lia. }
  apply G in H3. rewrite H1 in H3. exact H3.
Qed.

(** * Order *)

Lemma slt_app_eq x u v : slt u v -> slt (x ++ u) (x ++ v).
Proof. unfold slt. intros H. induction x as [|c x IH]; cbn; [exact H|]. now rewrite Z.compare_refl. Qed.
Lemma slt_app_len x y u v : length x = length y -> slt x y -> slt (x ++ u) (y ++ v).
Proof.
  unfold slt. revert y; induction x as [|c x IH]; intros [|d y] L H; cbn in *; try discriminate. destruct (c ?= d); try congruence. apply IH; auto.
Qed.
Lemma digitText_mono a b : 0 <= a -> a < b < 16 -> digitText true a < digitText true b.
Proof. intros. unfold digitText. destruct (Z.ltb_spec a 10), (Z.ltb_spec b 10); lia. Qed.
Lemma fixedHex_slt k : forall a b, 0 <= a < b -> b < 16 ^ Z.of_nat k -> slt (fixedHex k a) (fixedHex k b).
Proof.
  induction k as [|k IH]; intros a b Hab Hb; [cbn in Hb; lia|]. rewrite Nat2Z.inj_succ, Z.pow_succ_r in Hb by lia. cbn [fixedHex].
  assert (Ha' := Z.mod_pos_bound a 16 ltac:(lia)). assert (Hb' := Z.mod_pos_bound b 16 ltac:(lia)).
  assert (Ea := Z.div_mod a 16 ltac:(lia)). assert (Eb := Z.div_mod b 16 ltac:(lia)).
  destruct (Z.lt_trichotomy (a / 16) (b / 16)) as [L|[L|L]]; [|rewrite L|lia].
  - apply slt_app_len; [now rewrite !fixedHex_length|]. apply IH; [split; [apply Z.div_pos; lia|exact L]|apply Z.div_lt_upper_bound; lia].
  - apply slt_app_eq. unfold slt. cbn. assert (digitText true (a mod 16) < digitText true (b mod 16)) by (apply digitText_mono; lia).
    apply Z.compare_lt_iff in H. now rewrite H.
Qed.
Lemma hex8_slt a b : 0 <= a < b -> b < two32 -> slt (hex8 a) (hex8 b).
Proof. intros H1 H2. rewrite !hex8_fixed by lia. now apply fixedHex_slt. Qed.

(** * LSN text *)

Lemma splitOn_nosep c s : ~ In c s -> splitOn c s = [s].
Proof.
  induction s as [|x s IH]; intros H; [reflexivity|]. cbn. destruct (Z.eqb_spec x c) as [->|E]; [exfalso; apply H; now left|].
  rewrite IH; [reflexivity|]. intros Hi. apply H. now right.
Qed.
Lemma splitOn_app c s t : ~ In c s -> splitOn c (s ++ c :: t) = s :: splitOn c t.
Proof.
  induction s as [|x s IH]; intros H; cbn; [now rewrite Z.eqb_refl|]. destruct (Z.eqb_spec x c) as [->|E]; [exfalso; apply H; now left|].
  rewrite IH; [reflexivity|]. intros Hi. apply H. now right.
Qed.
Lemma splitOn_ne c s : splitOn c s <> [].
Proof. induction s as [|x s IH]; cbn; [discriminate|]. destruct (x =? c); [discriminate|]. destruct (splitOn c s); discriminate. Qed.
Lemma splitOn_one c s p : splitOn c s = [p] -> p = s /\ ~ In c s.
Proof.
  revert p; induction s as [|x s IH]; intros p; cbn; [intros H; injection H as <-; auto|]. destruct (Z.eqb_spec x c) as [E|E].
  - intros H. injection H as _ H. now apply splitOn_ne in H.
  - destruct (splitOn c s) as [|q ps] eqn:Eq; [now apply splitOn_ne in Eq|]. intros H. injection H as <- ->. destruct (IH q eq_refl) as [-> Hn].
    split; [reflexivity|]. intros [H|H]; auto.
Qed.
Lemma splitOn_two c s p q : splitOn c s = [p; q] -> s = p ++ c :: q /\ ~ In c p /\ ~ In c q.
Proof.
  revert p; induction s as [|x s IH]; intros p; cbn; [discriminate|]. destruct (Z.eqb_spec x c) as [->|E].
  - intros H. injection H as <- H. apply splitOn_one in H. destruct H as [-> Hn]. auto.
  - destruct (splitOn c s) as [|p' ps] eqn:Eq; [now apply splitOn_ne in Eq|]. intros H. injection H as <- ->.
    destruct (IH p' eq_refl) as (-> & H1 & H2). split; [reflexivity|]. split; [|exact H2]. intros [H|H]; auto.
Qed.

Lemma digits_noslash base s v : digitsIs base s v -> ~ In 47 s.
Proof.
  assert (G : forall c d, digitIs c d -> c <> 47) by (destruct 1; lia).
  induction 1 as [c d Hc Hd|s v c d H IH Hc Hd]; intros Hi.
  - destruct Hi as [E|[]]. now apply G in Hc.
  - apply in_app_or in Hi. destruct Hi as [Hi|[E|[]]]; [auto|]. now apply G in Hc.
Qed.
Lemma unsigned_noslash s v : unsignedText 16 s v -> ~ In 47 s.
Proof.
  intros (sg & p & ds & Hsg & Hp & -> & Hd) Hi. apply digits_noslash in Hd. apply in_app_or in Hi. destruct Hi as [Hi|Hi].
  - destruct Hsg as [->| ->]; [destruct Hi|destruct Hi as [E|[]]; discriminate].
  - apply in_app_or in Hi. destruct Hi as [Hi|Hi]; [|auto]. destruct Hp as [->|[_ [->| ->]]]; cbn in Hi; intuition discriminate.
Qed.

Lemma lsnFromStr_spec s v : lsnFromStr s = Ok v <->
  exists hi lo h l, s = hi ++ 47 :: lo /\ unsignedText 16 hi h /\ h < two64 /\ unsignedText 16 lo l /\ l < two64 /\
    v = (h * two32 + l) mod two64.
Proof.
  unfold lsnFromStr. split.
  - destruct (splitOn 47 s) as [|hi [|lo [|]]] eqn:E; try discriminate. apply splitOn_two in E. destruct E as (-> & _ & _).
    destruct (cvtZToUInt64 16 hi) as [h| |] eqn:E1; cbn [bind]; try discriminate. destruct (cvtZToUInt64 16 lo) as [l| |] eqn:E2; cbn [bind]; try discriminate.
    intros H. injection H as <-. apply cvtZToUInt64_spec in E1, E2; try lia. exists hi, lo, h, l. repeat (split; [tauto|]).
    now rewrite Zplus_mod_idemp_l.
  - intros (hi & lo & h & l & -> & H1 & H2 & H3 & H4 & ->). rewrite splitOn_app by (eapply unsigned_noslash; eauto).
    rewrite splitOn_nosep by (eapply unsigned_noslash; eauto).
    rewrite (proj2 (cvtZToUInt64_spec 16 ltac:(lia) hi h)) by auto. rewrite (proj2 (cvtZToUInt64_spec 16 ltac:(lia) lo l)) by auto. cbn [bind].
    now rewrite Zplus_mod_idemp_l.
Qed.

Lemma lsn_roundtrip lsn : 0 <= lsn < two64 -> lsnFromStr (lsnToStr lsn) = Ok lsn.
Proof.
  intros H. apply lsnFromStr_spec. unfold two64, two32 in *.
  exists (numText false 16 (lsn / 4294967296)), (numText false 16 (lsn mod 4294967296)), (lsn / 4294967296), (lsn mod 4294967296).
  assert (H1 : 0 <= lsn / 4294967296 < 4294967296) by (split; [apply Z.div_pos; lia|apply Z.div_lt_upper_bound; lia]).
  assert (H2 := Z.mod_pos_bound lsn 4294967296 ltac:(lia)). assert (E := Z.div_mod lsn 4294967296 ltac:(lia)).
  split; [reflexivity|]. split; [apply digits_unsigned, numText_is; unfold two64; lia|]. split; [lia|].
  split; [apply digits_unsigned, numText_is; unfold two64; lia|]. split; [lia|]. rewrite Z.mod_small; lia.
Qed.

(** * Segments *)

Section Seg.
  Variables (tl size : Z).
  Hypothesis Hs : goodSize size.
  Variable P : Z.
  Definition isP (p : Z) : Prop := p = two32 / size.
  Hypothesis HPe : isP P.

  Lemma P_mul : two32 = P * size.
  Proof.
    destruct Hs as [H1 (q & Hq)]. pose proof HPe as HP'. unfold isP in HP'. rewrite HP'. clear HP'. change (2 ^ 32) with two32 in *. rewrite Hq, Z.div_mul by lia. reflexivity.
  Qed.
  Lemma P_bounds : 2 <= P /\ P <= 2147483648.
  Proof.
    destruct Hs as [H1 _]. pose proof P_mul as E. unfold two32 in E. change (2 ^ 32) with 4294967296 in H1.
    clear HPe. nia.
  Qed.
  Lemma perMajor : (two32 - 1) / size = P - 1.
  Proof. pose proof P_mul as E. pose proof P_bounds. destruct Hs as [H1 _]. symmetry. apply Z.div_unique with (size - 1); [lia|]. rewrite E. ring. Qed.
  Lemma major_eq b : b / two32 = (b / size) / P.
  Proof. rewrite P_mul, Z.mul_comm. destruct Hs. pose proof P_bounds. now rewrite Z.div_div by lia. Qed.
  Lemma minor_eq b : b mod two32 / size = (b / size) mod P.
  Proof.
    destruct Hs as [H1 _]. pose proof P_bounds. assert (E0 := Z.div_mod b two32 ltac:(unfold two32; lia)).
    rewrite major_eq in E0. rewrite P_mul in E0. rewrite P_mul.
    assert (E1 := Z.div_mod (b / size) P ltac:(lia)). set (q := b / size / P) in *.
    assert (E2 : b / size = q * P + b mod (P * size) / size).
    { rewrite E0 at 1. replace (P * size * q + b mod (P * size)) with ((q * P) * size + b mod (P * size)) by ring. rewrite Z.div_add_l by lia. reflexivity. }
    assert (P * q = q * P) by ring. generalize dependent (b mod (P * size) / size). intros. lia.
  Qed.

  (** Name of segment number [k]. *)
  Definition segName (k : Z) : str := walName tl (k / P) (k mod P).
  Lemma lsnToWalSegment_name b : lsnToWalSegment tl b size = segName (b / size).
  Proof. unfold lsnToWalSegment, segName. now rewrite major_eq, minor_eq. Qed.

  Lemma segno_bounds b : 0 <= b < two64 -> 0 <= b / size /\ b / size < two32 * P.
  Proof.
    intros H. destruct Hs as [H1 _]. split; [apply Z.div_pos; lia|]. apply Z.div_lt_upper_bound; [lia|].
    replace (size * (two32 * P)) with (two32 * two32); [exact (proj2 H)|]. rewrite P_mul at 2. ring.
  Qed.
  Lemma part_bounds k : 0 <= k < two32 * P -> 0 <= k / P < two32 /\ 0 <= k mod P < P.
  Proof.
    intros H. pose proof P_bounds. split; [|apply Z.mod_pos_bound; lia]. split; [apply Z.div_pos; lia|]. apply Z.div_lt_upper_bound; lia.
  Qed.
  Lemma P_two32 : P < two32. Proof. pose proof P_bounds. unfold two32. lia. Qed.

  Lemma name_is b : goodTimeline tl -> 0 <= b < two64 -> segmentIs tl size b (lsnToWalSegment tl b size).
  Proof.
    intros Ht Hb. rewrite lsnToWalSegment_name. unfold segmentIs. cbn zeta. change (2 ^ 32) with two32. replace (two32 / size) with P by exact HPe. destruct (segno_bounds b Hb). destruct (part_bounds (b / size)) as [H1 H2]; [lia|].
    exists (hex8 tl), (hex8 (b / size / P)), (hex8 ((b / size) mod P)). split; [reflexivity|]. pose proof P_two32. split; [apply hex8_is; unfold goodTimeline in Ht; change (2 ^ 32) with two32 in Ht; lia|].
    split; apply hex8_is; lia.
  Qed.
  Lemma is_name b w : segmentIs tl size b w -> w = segName (b / size) /\ 0 <= b / size / P < two32.
  Proof.
    unfold segmentIs. cbn zeta. change (2 ^ 32) with two32. replace (two32 / size) with P by exact HPe. intros (t & x & y & -> & Ht & Hx & Hy). unfold segName, walName.
    rewrite !hex8_fixed by (eapply hex8Is_range; eauto). rewrite (hex8Is_eq _ _ Ht), (hex8Is_eq _ _ Hx), (hex8Is_eq _ _ Hy). split; [reflexivity|].
    eapply hex8Is_range; eauto.
  Qed.
  Lemma hex8_inj a b : 0 <= a < two32 -> 0 <= b < two32 -> hex8 a = hex8 b -> a = b.
  Proof.
    intros Ha Hb E. destruct (Z.lt_trichotomy a b) as [L|[L|L]]; [|exact L|].
    - exfalso. apply (slt_irrefl (hex8 a)). rewrite E at 2. apply hex8_slt; lia.
    - exfalso. apply (slt_irrefl (hex8 b)). rewrite <- E at 2. apply hex8_slt; lia.
  Qed.

  Lemma segName_slt a b : 0 <= tl < two32 -> 0 <= a < b -> b < two32 * P -> slt (segName a) (segName b).
  Proof.
    intros Ht Hab Hb. unfold segName, walName. apply slt_app_eq. destruct (part_bounds a) as [A1 A2]; [lia|]. destruct (part_bounds b) as [B1 B2]; [lia|].
    pose proof P_bounds. pose proof P_two32. assert (Ea := Z.div_mod a P ltac:(lia)). assert (Eb := Z.div_mod b P ltac:(lia)).
    destruct (Z.lt_trichotomy (a / P) (b / P)) as [L|[L|L]]; [|rewrite L|nia].
    - apply slt_app_len; [rewrite !hex8_length by lia; reflexivity|]. apply hex8_slt; lia.
    - apply slt_app_eq. rewrite L in Ea. apply hex8_slt; lia.
  Qed.

  (** Stepping. *)
  Lemma next_parts k : 0 <= k -> k + 1 < two32 * P ->
    (if P - 1 <? (k mod P + 1) mod two32 then ((k / P + 1) mod two32, 0) else (k / P, (k mod P + 1) mod two32)) = ((k + 1) / P, (k + 1) mod P).
  Proof.
    intros Hk Hk1. destruct (part_bounds k) as [A1 A2]; [lia|]. pose proof P_bounds as HP. pose proof P_two32 as HP2. assert (E := Z.div_mod k P ltac:(lia)).
    rewrite (Z.mod_small (k mod P + 1)) by lia. destruct (Z.ltb_spec (P - 1) (k mod P + 1)) as [L|L].
    - assert (Em : k mod P = P - 1) by lia. assert (Eq : k + 1 = P * (k / P + 1) + 0) by lia.
      assert (Hd : (k + 1) / P = k / P + 1) by (symmetry; apply Z.div_unique with 0; [lia|exact Eq]).
      assert (Hm : (k + 1) mod P = 0) by (symmetry; apply Z.mod_unique with (k / P + 1); [lia|exact Eq]).
      rewrite Hm, <- Hd. f_equal. apply Z.mod_small. apply part_bounds. lia.
    - assert (Eq : k + 1 = P * (k / P) + (k mod P + 1)) by lia.
      f_equal; [apply Z.div_unique with (k mod P + 1); [lia|exact Eq]|apply Z.mod_unique with (k / P); [lia|exact Eq]].
  Qed.

  Definition zrange (a : Z) (n : nat) : list Z := map (fun i => a + Z.of_nat i) (seq 0 n).
  Lemma zrange_S a n : zrange a (S n) = a :: zrange (a + 1) n.
  Proof. unfold zrange. cbn [seq map]. f_equal; [lia|]. rewrite <- seq_shift, map_map. apply map_ext. intros i. lia. Qed.
  Lemma zrange_in a n x : In x (zrange a n) <-> a <= x < a + Z.of_nat n.
  Proof.
    unfold zrange. rewrite in_map_iff. split.
    - intros (i & <- & Hi). apply in_seq in Hi. lia.
    - intros H. exists (Z.to_nat (x - a)). split; [lia|]. apply in_seq. lia.
  Qed.

  Lemma rangeLoop_spec n : forall fuel k, (n <= fuel)%nat -> 0 <= k -> k + Z.of_nat n < two32 * P ->
    lsnRangeLoop fuel tl (P - 1) (k / P) (k mod P) ((k + Z.of_nat n) / P) ((k + Z.of_nat n) mod P) = Ok (map segName (zrange (k + 1) n)).
  Proof.
    induction n as [|n IH]; intros fuel k Hf Hk Hb.
    - rewrite Z.add_0_r. destruct fuel; cbn [lsnRangeLoop]; rewrite !Z.eqb_refl; reflexivity.
    - destruct fuel as [|fuel]; [lia|]. cbn [lsnRangeLoop].
      assert (Hne : (k / P =? (k + Z.of_nat (S n)) / P) && (k mod P =? (k + Z.of_nat (S n)) mod P) = false).
      { pose proof P_bounds. destruct (Z.eqb_spec (k / P) ((k + Z.of_nat (S n)) / P)) as [E1|]; [|reflexivity].
        destruct (Z.eqb_spec (k mod P) ((k + Z.of_nat (S n)) mod P)) as [E2|]; [|reflexivity]. exfalso.
        assert (A := Z.div_mod k P ltac:(lia)). assert (B := Z.div_mod (k + Z.of_nat (S n)) P ltac:(lia)). rewrite <- E1, <- E2 in B. lia. }
      rewrite Hne. cbn zeta. rewrite next_parts by (clear - Hk Hb; lia). replace (k + Z.of_nat (S n)) with ((k + 1) + Z.of_nat n) by lia.
      rewrite IH by lia. cbn [bind]. rewrite zrange_S. reflexivity.
  Qed.

  Lemma range_spec fuel start stop : tl <> 0 -> 0 <= start <= stop -> stop < two64 -> (Z.to_nat (stop / size - start / size) <= fuel)%nat ->
    lsnRangeToWalSegmentList fuel tl start stop size = Ok (map segName (zrange (start / size) (S (Z.to_nat (stop / size - start / size))))).
  Proof.
    intros Ht H1 H2 Hf. destruct Hs as [Hsz _]. unfold lsnRangeToWalSegmentList.
    replace ((tl =? 0) || (stop <? start) || (size =? 0)) with false by lia. cbn zeta. rewrite perMajor, !major_eq, !minor_eq.
    destruct (segno_bounds start) as [A1 A2]; [lia|]. destruct (segno_bounds stop) as [B1 B2]; [lia|].
    assert (Hle : start / size <= stop / size) by (apply Z.div_le_mono; lia).
    set (n := Z.to_nat (stop / size - start / size)) in *. assert (En : stop / size = start / size + Z.of_nat n) by lia. rewrite En.
    rewrite rangeLoop_spec by lia. cbn [bind]. rewrite zrange_S. reflexivity.
  Qed.

  Lemma map_segName_sorted n : 0 <= tl < two32 -> forall a, 0 <= a -> a + Z.of_nat n <= two32 * P -> ssorted (map segName (zrange a n)).
  Proof.
    intros Ht. induction n as [|n IH]; intros a Ha Hb; [constructor|]. rewrite zrange_S. cbn [map]. constructor; [apply IH; lia|].
    apply Forall_forall. intros x Hx. apply in_map_iff in Hx. destruct Hx as (j & <- & Hj). apply zrange_in in Hj. apply segName_slt; lia.
  Qed.

  (** * walSegmentNext *)
  Lemma strtolU32_hex8 n : 0 <= n < two32 -> strtolU32 (hex8 n) = n.
  Proof.
    intros H. destruct (hex8_is n H) as (_ & _ & Hd). unfold strtolU32, strtoll.
    pose proof (strto_sound 16 ltac:(lia) [] [] (hex8 n) n (or_introl eq_refl) (or_introl eq_refl) Hd) as E. cbn [app] in E. rewrite E.
    cbn zeta. unfold two63, two32 in *. replace (9223372036854775808 <=? n) with false by lia. match goal with |- context[if ?c then _ else _] => replace c with false by lia end.
    cbn iota beta.
    apply Z.mod_small. lia.
  Qed.
  Lemma timeline_hex8 rest n : 0 <= n < two32 -> length rest = 16%nat -> timelineFromWalSegment (hex8 n ++ rest) = Ok n.
  Proof.
    intros H Hr. unfold timelineFromWalSegment. rewrite app_length, hex8_length, Hr by exact H. cbn [Nat.add Nat.eqb].
    unfold cvtZSubNToUInt. rewrite skipn_O. pose proof (hex8_length n H) as L. replace 8%nat with (length (hex8 n) + 0)%nat by lia. rewrite firstn_app_2, firstn_O, app_nil_r.
    apply cvtZToUInt_spec; [lia|]. split; [|lia]. destruct (hex8_is n H) as (_ & _ & Hd). now apply digits_unsigned.
  Qed.

  Lemma walName_parts a b c : 0 <= a < two32 -> 0 <= b < two32 -> 0 <= c < two32 ->
    length (walName a b c) = 24%nat /\ timelineFromWalSegment (walName a b c) = Ok a /\
    firstn 8 (skipn 8 (walName a b c)) = hex8 b /\ firstn 8 (skipn 16 (walName a b c)) = hex8 c.
  Proof.
    intros Ha Hb Hc. unfold walName. pose proof (hex8_length a Ha) as La. pose proof (hex8_length b Hb) as Lb. pose proof (hex8_length c Hc) as Lc.
    split; [rewrite !app_length, La, Lb, Lc; reflexivity|]. split; [apply timeline_hex8; [exact Ha|rewrite app_length, Lb, Lc; reflexivity]|]. split.
    - rewrite skipn_app, La, Nat.sub_diag, skipn_O. rewrite skipn_all2 by lia. cbn [app]. rewrite firstn_app, Lb, Nat.sub_diag, firstn_O, app_nil_r.
      apply firstn_all2. lia.
    - rewrite skipn_app, La. rewrite skipn_all2 by lia. cbn [app]. rewrite skipn_app, Lb. rewrite skipn_all2 by lia. cbn [app Nat.sub skipn].
      apply firstn_all2. lia.
  Qed.

  Lemma next_spec k : 0 <= tl < two32 -> 0 <= k -> k + 1 < two32 * P -> walSegmentNext (segName k) size = Ok (segName (k + 1)).
  Proof.
    intros Ht Hk Hk1. destruct (part_bounds k) as [A1 A2]; [lia|]. pose proof P_two32. pose proof P_bounds.
    destruct (walName_parts tl (k / P) (k mod P)) as (L & T & M & N); try lia. unfold walSegmentNext.
    change (walName tl (k / P) (k mod P)) with (segName k) in *. rewrite L.
    replace ((two32 - 1) mod size =? size - 1) with true.
    2:{ symmetry. apply Z.eqb_eq. destruct Hs. pose proof P_mul. symmetry. apply Z.mod_unique with (P - 1); [lia|]. rewrite H3. ring. }
    cbn [Nat.eqb negb orb]. rewrite T. cbn [bind]. rewrite M, N, !strtolU32_hex8 by lia. rewrite perMajor.
    pose proof (next_parts k Hk Hk1) as E. destruct (P - 1 <? (k mod P + 1) mod two32); injection E as E1 E2; unfold segName; rewrite <- E1, <- E2; reflexivity.
  Qed.
  (** At the end of the 64-bit WAL space the name wraps to the first segment. *)
  Lemma next_wrap : 0 <= tl < two32 -> walSegmentNext (segName (two32 * P - 1)) size = Ok (segName 0).
  Proof.
    intros Ht. pose proof P_two32. pose proof P_bounds. set (k := two32 * P - 1). assert (Ek : k = P * (two32 - 1) + (P - 1)) by (unfold k; ring).
    assert (D : k / P = two32 - 1) by (symmetry; apply Z.div_unique with (P - 1); [lia|exact Ek]).
    assert (M0 : k mod P = P - 1) by (symmetry; apply Z.mod_unique with (two32 - 1); [lia|exact Ek]).
    assert (two32 = 4294967296) by reflexivity.
    destruct (walName_parts tl (k / P) (k mod P)) as (L & T & M & N); try lia. unfold walSegmentNext.
    change (walName tl (k / P) (k mod P)) with (segName k) in *. rewrite L.
    replace ((two32 - 1) mod size =? size - 1) with true.
    2:{ symmetry. apply Z.eqb_eq. destruct Hs. pose proof P_mul as E. symmetry. apply Z.mod_unique with (P - 1); [lia|]. rewrite E. ring. }
    cbn [Nat.eqb negb orb]. rewrite T. cbn [bind]. rewrite M, N, !strtolU32_hex8 by lia. rewrite perMajor, D, M0.
    rewrite (Z.mod_small (P - 1 + 1)) by lia. replace (P - 1 <? P - 1 + 1) with true by lia.
    replace (two32 - 1 + 1) with two32 by lia. rewrite Z.mod_same by (unfold two32; lia). unfold segName. rewrite Z.div_0_l, Z.mod_0_l by lia. reflexivity.
  Qed.
  Lemma rangeNext_spec n : 0 <= tl < two32 -> forall k, 0 <= k -> k + Z.of_nat n < two32 * P ->
    walRangeLoop n (segName k) size = Ok (map segName (zrange (k + 1) n)).
  Proof.
    intros Ht. induction n as [|n IH]; intros k Hk Hb; [reflexivity|]. cbn [walRangeLoop]. rewrite next_spec by lia. cbn [bind].
    rewrite IH by lia. cbn [bind]. rewrite zrange_S. reflexivity.
  Qed.
End Seg.

(** * Statements over byte positions *)

Lemma goodSize_P size : goodSize size -> isP size (two32 / size). Proof. reflexivity. Qed.

Lemma segmentIs_unique tl size b w w' : segmentIs tl size b w -> segmentIs tl size b w' -> w = w'.
Proof.
  intros (t & x & y & -> & H1 & H2 & H3) (t' & x' & y' & -> & H1' & H2' & H3').
  now rewrite (hex8Is_eq _ _ H1), (hex8Is_eq _ _ H2), (hex8Is_eq _ _ H3), (hex8Is_eq _ _ H1'), (hex8Is_eq _ _ H2'), (hex8Is_eq _ _ H3').
Qed.

Lemma range_exact tl size start stop fuel : goodTimeline tl -> goodSize size -> 0 <= start <= stop -> stop < two64 ->
  (Z.to_nat (stop / size - start / size) <= fuel)%nat ->
  exists l, lsnRangeToWalSegmentList fuel tl start stop size = Ok l /\ ssorted l /\
    forall w, In w l <-> exists b, start <= b <= stop /\ segmentIs tl size b w.
Proof.
  intros Ht Hs H1 H2 Hf. pose proof (goodSize_P size Hs) as HP. set (P := two32 / size) in HP. clearbody P.
  assert (Ht' : 0 < tl < two32) by exact Ht.
  eexists. split; [apply (range_spec tl size Hs P HP); try assumption; lia|].
  assert (Hle : start / size <= stop / size) by (destruct Hs; apply Z.div_le_mono; lia).
  pose proof (segno_bounds size Hs P HP stop ltac:(lia)) as B. pose proof (segno_bounds size Hs P HP start ltac:(lia)) as A.
  split; [apply (map_segName_sorted tl size Hs P HP); lia|]. intros w. rewrite in_map_iff. split.
  - intros (k & <- & Hk). apply zrange_in in Hk. assert (Hs' : 2 <= size) by (destruct Hs; lia).
    (* a byte of the range in segment k *)
    exists (Z.max start (k * size)). 
    assert (Hk1 : start / size <= k <= stop / size) by lia. clear Hk.
    assert (D1 := Z.div_mod start size ltac:(lia)). assert (M1 := Z.mod_pos_bound start size ltac:(lia)).
    assert (D2 := Z.div_mod stop size ltac:(lia)). assert (M2 := Z.mod_pos_bound stop size ltac:(lia)).
    assert (Hr : start <= Z.max start (k * size) <= stop) by nia.
    assert (Hk2 : Z.max start (k * size) / size = k).
    { symmetry. apply Z.div_unique with (Z.max start (k * size) - size * k); [|lia]. left. nia. }
    split; [exact Hr|]. rewrite <- Hk2 at 2. rewrite <- (lsnToWalSegment_name tl size Hs P HP). apply (name_is tl size Hs P HP); [exact Ht|lia].
  - intros (b & Hb & Hw). apply (is_name tl size P HP) in Hw. destruct Hw as [-> _]. exists (b / size). split; [reflexivity|]. apply zrange_in.
    destruct Hs. assert (start / size <= b / size) by (apply Z.div_le_mono; lia). assert (b / size <= stop / size) by (apply Z.div_le_mono; lia). lia.
Qed.

Lemma next_exact tl size b w : goodTimeline tl -> goodSize size -> 0 <= b -> b + size < two64 -> segmentIs tl size b w ->
  exists w', walSegmentNext w size = Ok w' /\ segmentIs tl size (b + size) w'.
Proof.
  intros Ht Hs Hb Hb2 Hw. pose proof (goodSize_P size Hs) as HP. set (P := two32 / size) in HP. clearbody P. assert (Ht' : 0 < tl < two32) by exact Ht.
  assert (Hs' : 2 <= size) by (destruct Hs; lia).
  apply (is_name tl size P HP) in Hw. destruct Hw as [-> _]. assert (E : (b + size) / size = b / size + 1) by (rewrite <- (Z.mul_1_l size) at 1; apply Z.div_add; lia).
  pose proof (segno_bounds size Hs P HP (b + size) ltac:(lia)) as B. pose proof (segno_bounds size Hs P HP b ltac:(lia)) as A.
  exists (segName tl P (b / size + 1)). split; [apply (next_spec tl size Hs P HP); lia|].
  rewrite <- E, <- (lsnToWalSegment_name tl size Hs P HP). apply (name_is tl size Hs P HP); [exact Ht|lia].
Qed.
Lemma next_wraps tl size w w0 : goodTimeline tl -> goodSize size -> segmentIs tl size (two64 - 1) w -> segmentIs tl size 0 w0 -> walSegmentNext w size = Ok w0.
Proof.
  intros Ht Hs Hw H0. pose proof (goodSize_P size Hs) as HP. set (P := two32 / size) in HP. clearbody P. assert (Ht' : 0 < tl < two32) by exact Ht.
  apply (is_name tl size P HP) in Hw. apply (is_name tl size P HP) in H0. destruct Hw as [-> _]. destruct H0 as [-> _].
  replace ((two64 - 1) / size) with (two32 * P - 1).
  2:{ apply Z.div_unique with (size - 1); [destruct Hs; lia|]. change two64 with (two32 * two32). rewrite (P_mul size Hs P HP) at 2. ring. }
  rewrite Z.div_0_l by (destruct Hs; lia). apply (next_wrap tl size Hs P HP). lia.
Qed.
Lemma walRange_exact tl size n b w : goodTimeline tl -> goodSize size -> 0 <= b -> b + Z.of_nat n * size < two64 -> segmentIs tl size b w ->
  exists l, walSegmentRange w size (S n) = Ok l /\ length l = S n /\
    forall i, (i <= n)%nat -> exists x, nth_error l i = Some x /\ segmentIs tl size (b + Z.of_nat i * size) x.
Proof.
  intros Ht Hs Hb Hb2 Hw. pose proof (goodSize_P size Hs) as HP. set (P := two32 / size) in HP. clearbody P. assert (Ht' : 0 < tl < two32) by exact Ht.
  assert (Hs' : 2 <= size) by (destruct Hs; lia).
  apply (is_name tl size P HP) in Hw. destruct Hw as [-> _].
  assert (E : forall i, (b + Z.of_nat i * size) / size = b / size + Z.of_nat i) by (intros; apply Z.div_add; lia).
  pose proof (segno_bounds size Hs P HP (b + Z.of_nat n * size) ltac:(nia)) as B. rewrite E in B. pose proof (segno_bounds size Hs P HP b ltac:(nia)) as A.
  exists (map (segName tl P) (zrange (b / size) (S n))). unfold walSegmentRange. rewrite (rangeNext_spec tl size Hs P HP) by lia. cbn [bind].
  split; [now rewrite zrange_S|]. split; [unfold zrange; now rewrite !map_length, seq_length|].
  intros i Hi. exists (segName tl P (b / size + Z.of_nat i)). split.
  - unfold zrange. rewrite map_map. rewrite nth_error_map.
    replace (nth_error (seq 0 (S n)) i) with (Some i); [reflexivity|]. symmetry. rewrite (nth_error_nth' _ 0%nat) by (rewrite seq_length; lia). rewrite seq_nth by lia. reflexivity.
  - rewrite <- E, <- (lsnToWalSegment_name tl size Hs P HP). apply (name_is tl size Hs P HP); [exact Ht|]. assert (Z.of_nat i <= Z.of_nat n) by lia. nia.
Qed.
Lemma timeline_exact tl size b w : goodTimeline tl -> goodSize size -> segmentIs tl size b w -> timelineFromWalSegment w = Ok tl.
Proof.
  intros Ht Hs (t & x & y & -> & H1 & H2 & H3). assert (Ht' : 0 < tl < two32) by exact Ht. rewrite (hex8Is_eq _ _ H1), <- hex8_fixed by lia. apply timeline_hex8; [lia|].
  destruct H2 as [L2 _]. destruct H3 as [L3 _]. rewrite app_length. lia.
Qed.
Lemma segment_exact tl size b : goodTimeline tl -> goodSize size -> 0 <= b < two64 -> segmentIs tl size b (lsnToWalSegment tl b size).
Proof. intros Ht Hs Hb. exact (name_is tl size Hs _ (goodSize_P size Hs) b Ht Hb). Qed.
