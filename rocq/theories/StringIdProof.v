From Verif Require Import Base StringIdModel StringIdSpec.
Open Scope Z_scope.

Lemma code5_range c : isByte c -> 0 <= code map5 c < 31.
Proof.
  intros H. pose proof (byte_sweep (fun c => (0 <=? code map5 c) && (code map5 c <? 31)) ltac:(vm_compute; reflexivity) c H) as E.
  cbv beta in E. lia.
Qed.
Lemma code6_range c : isByte c -> 0 <= code map6 c < 64.
Proof.
  intros H. pose proof (byte_sweep (fun c => (0 <=? code map6 c) && (code map6 c <? 64)) ltac:(vm_compute; reflexivity) c H) as E.
  cbv beta in E. lia.
Qed.
Lemma uncode5 c : isByte c -> code map5 c <> 0 -> nth (Z.to_nat (code map5 c)) unmap5 0 = c.
Proof.
  intros H. pose proof (byte_sweep (fun c => (code map5 c =? 0) || (nth (Z.to_nat (code map5 c)) unmap5 0 =? c)) ltac:(vm_compute; reflexivity) c H) as E.
  cbv beta in E. lia.
Qed.
Lemma uncode6 c : isByte c -> code map6 c <> 0 -> nth (Z.to_nat (code map6 c)) unmap6 0 = c.
Proof.
  intros H. pose proof (byte_sweep (fun c => (code map6 c =? 0) || (nth (Z.to_nat (code map6 c)) unmap6 0 =? c)) ltac:(vm_compute; reflexivity) c H) as E.
  cbv beta in E. lia.
Qed.
Lemma code5_char c : isByte c -> code map5 c <> 0 <-> char5 c.
Proof.
  intros H. pose proof (byte_sweep (fun c => Bool.eqb (negb (code map5 c =? 0))
    (((97 <=? c) && (c <=? 122)) || (c =? 45) || (c =? 50) || (c =? 53) || (c =? 54))) ltac:(vm_compute; reflexivity) c H) as E.
  cbv beta in E. apply eqb_prop in E. unfold char5. lia.
Qed.
Lemma code6_char c : isByte c -> code map6 c <> 0 <-> char6 c.
Proof.
  intros H. pose proof (byte_sweep (fun c => Bool.eqb (negb (code map6 c =? 0))
    (((97 <=? c) && (c <=? 122)) || ((65 <=? c) && (c <=? 90)) || ((48 <=? c) && (c <=? 57)) || (c =? 45))) ltac:(vm_compute; reflexivity) c H) as E.
  cbv beta in E. apply eqb_prop in E. unfold char6. lia.
Qed.

(** Number formed by the codes, least significant first. *)
Fixpoint num (m : list Z) (w : Z) (s : list Z) : Z :=
  match s with [] => 0 | c :: r => code m c + 2 ^ w * num m w r end.

Section W.
  Variable m : list Z.
  Variable w : Z.
  Hypothesis Hw : 0 < w.
  Hypothesis Hrange : forall c, isByte c -> 0 <= code m c < 2 ^ w.

  Lemma num_range s : bytes s -> 0 <= num m w s < 2 ^ (w * Z.of_nat (length s)).
  Proof.
    induction 1 as [|c s Hc Hs IH]; cbn [num length]; [rewrite Z.mul_0_r; cbn; lia|].
    pose proof (Hrange c Hc). replace (w * Z.of_nat (S (length s))) with (w + w * Z.of_nat (length s)) by lia.
    rewrite Z.pow_add_r by lia. nia.
  Qed.
  Lemma orChars_num s : forall shift, 0 <= shift -> bytes s -> orChars m w shift s = 2 ^ shift * num m w s.
  Proof.
    induction s as [|c s IH]; intros shift Hs Hb; cbn [orChars num]; [lia|].
    inversion_clear Hb as [|? ? Hc Hss]. rewrite IH by (try assumption; lia).
    rewrite Z.pow_add_r by lia. rewrite Z.shiftl_mul_pow2 by lia.
    replace (2 ^ shift * 2 ^ w * num m w s) with ((num m w s * 2 ^ w) * 2 ^ shift) by ring.
    rewrite <- !Z.shiftl_mul_pow2 by lia. rewrite <- Z.shiftl_lor. rewrite !Z.shiftl_mul_pow2 by lia.
    rewrite lor_add_mul by (try lia; apply Hrange, Hc). ring.
  Qed.
  Lemma num_pos s : bytes s -> Forall (fun c => code m c <> 0) s -> s <> [] -> 0 < num m w s.
  Proof.
    intros Hb Hn Hne. destruct s as [|c s]; [congruence|]. inversion_clear Hb as [|? ? Hc Hs]. inversion_clear Hn as [|? ? Hnc _].
    cbn [num]. pose proof (Hrange c Hc). pose proof (num_range s Hs). pose proof (Z.pow_pos_nonneg 2 w ltac:(lia) ltac:(lia)). nia.
  Qed.
  Variable unmap : list Z.
  Hypothesis Hun : forall c, isByte c -> code m c <> 0 -> nth (Z.to_nat (code m c)) unmap 0 = c.
  Lemma chars_num s : forall n, bytes s -> Forall (fun c => code m c <> 0) s -> s <> [] -> (length s <= n)%nat ->
    strIdChars unmap w n (num m w s) = Ok s.
  Proof.
    induction s as [|c s IH]; intros n Hb Hn Hne Hlen; [congruence|].
    inversion_clear Hb as [|? ? Hc Hs]. inversion_clear Hn as [|? ? Hnc Hns]. cbn [length] in Hlen.
    destruct n as [|n]; [lia|]. cbn [strIdChars num]. pose proof (Hrange c Hc) as Hr.
    pose proof (Z.pow_pos_nonneg 2 w ltac:(lia) ltac:(lia)) as Hp.
    rewrite land_ones_mod by lia.
    replace (code m c + 2 ^ w * num m w s) with (code m c + num m w s * 2 ^ w) by ring.
    rewrite Z_mod_plus_full, (Z.mod_small (code m c)) by lia. rewrite Hun by assumption.
    rewrite Z.shiftr_div_pow2 by lia. rewrite Z_div_plus_full by lia. rewrite Z.div_small by lia. rewrite Z.add_0_l.
    destruct s as [|d s']; [reflexivity|].
    pose proof (num_pos (d :: s') Hs Hns ltac:(discriminate)) as Hpos.
    replace (num m w (d :: s') =? 0) with false by lia. rewrite IH by (try assumption; try discriminate; lia). reflexivity.
  Qed.
End W.

Lemma existsb_false_Forall m s : existsb (fun c => code m c =? 0) s = false <-> Forall (fun c => code m c <> 0) s.
Proof.
  induction s as [|c s IH]; cbn [existsb]; [split; auto|]. rewrite orb_false_iff, IH. split.
  - intros [H1 H2]. constructor; [lia|exact H2].
  - intros H. inversion_clear H. split; [lia|assumption].
Qed.

Definition mapOf (bit : Z) := if bit =? 0 then map5 else map6.
Definition unmapOf (bit : Z) := if bit =? 0 then unmap5 else unmap6.
Definition wOf (bit : Z) := if bit =? 0 then 5 else 6.
Definition maxOf (bit : Z) := if bit =? 0 then STRID5_MAX else STRID6_MAX.

Definition encodable (bit : Z) (s : list Z) := (length s <= maxOf bit)%nat /\ Forall (fun c => code (mapOf bit) c <> 0) s.

Lemma bitFrom_ok bit s : bit = 0 \/ bit = 1 -> bytes s -> encodable bit s ->
  strIdBitFrom bit s = bit + 16 * num (mapOf bit) (wOf bit) s.
Proof.
  intros Hbit Hb [Hl Hc]. unfold strIdBitFrom. apply existsb_false_Forall in Hc.
  assert (E : (maxOf bit <? length s)%nat = false) by (apply Nat.ltb_ge; exact Hl).
  destruct Hbit as [-> | ->]; cbn [Z.eqb mapOf maxOf wOf] in *;
    (change (STRID5_MAX <? length s)%nat with (STRID5_MAX <? length s)%nat).
  - change (0 =? 0) with true in *. cbn [mapOf maxOf wOf] in *. unfold mapOf, maxOf, wOf in *. change (0 =? 0) with true in *. cbv iota in *.
    rewrite E, Hc. rewrite (orChars_num map5 5) by (try lia; try assumption; intros; pose proof (code5_range _ H); lia).
    change (2^4) with 16. rewrite Z.lor_0_l. reflexivity.
  - unfold mapOf, maxOf, wOf in *. change (1 =? 0) with false in *. cbv iota in *.
    rewrite E, Hc. rewrite (orChars_num map6 6) by (try lia; try assumption; intros; pose proof (code6_range _ H); lia).
    rewrite (Z.mul_comm (2^4)). rewrite lor_add_mul by lia. change (2^4) with 16. lia.
Qed.
Lemma bitFrom_fail bit s : bit = 0 \/ bit = 1 -> bytes s -> ~ encodable bit s -> strIdBitFrom bit s = 0.
Proof.
  intros Hbit Hb He. unfold strIdBitFrom.
  destruct (Nat.ltb_spec (if bit =? 0 then STRID5_MAX else STRID6_MAX) (length s)); [reflexivity|].
  destruct (existsb _ s) eqn:E; [reflexivity|]. exfalso. apply He. split; [exact H|]. apply existsb_false_Forall. exact E.
Qed.
Lemma encodable_dec bit s : {encodable bit s} + {~ encodable bit s}.
Proof.
  unfold encodable. destruct (le_dec (length s) (maxOf bit)); [|right; tauto].
  destruct (Forall_dec (fun c => code (mapOf bit) c <> 0)) with (l := s); [|left; tauto|right; tauto].
  intros c. destruct (Z.eq_dec (code (mapOf bit) c) 0); [right; lia|left; assumption].
Qed.

Lemma mapOf_range bit : forall c, isByte c -> 0 <= code (mapOf bit) c < 2 ^ wOf bit.
Proof.
  intros c H. unfold mapOf, wOf. destruct (bit =? 0).
  - pose proof (code5_range c H). change (2^5) with 32. lia.
  - pose proof (code6_range c H). change (2^6) with 64. lia.
Qed.
Lemma mapOf_un bit : forall c, isByte c -> code (mapOf bit) c <> 0 -> nth (Z.to_nat (code (mapOf bit) c)) (unmapOf bit) 0 = c.
Proof. intros c H. unfold mapOf, unmapOf. destruct (bit =? 0); [apply uncode5|apply uncode6]; exact H. Qed.
Lemma wOf_pos bit : 0 < wOf bit.
Proof. unfold wOf. destruct (bit =? 0); lia. Qed.

(** The id of a string with a sequence, as a number. *)
Definition hdr (seq : option Z) : Z := match seq with None => 0 | Some n => if n <? 6 then 2 * (n + 1) else 14 + 16 * (n - 6) end.
Definition hbits (seq : option Z) : Z := match seq with None => 16 | Some n => if n <? 6 then 16 else 512 end.

Definition idNum (bit : Z) (s : list Z) (seq : option Z) : Z := bit + hdr seq + hbits seq * num (mapOf bit) (wOf bit) s.

(** Which encoding is chosen. *)
Definition bitFor (s : list Z) : option Z :=
  if encodable_dec 0 s then Some 0 else if encodable_dec 1 s then Some 1 else None.

Definition seqFits (bit : Z) (s : list Z) (seq : option Z) : Prop :=
  match seq with None => True | Some n => 0 <= n < 6 \/ (6 <= n <= 37 /\ (length s < maxOf bit)%nat) end.

Lemma land1_even x : Z.land (0 + 16 * x) 1 = 0.
Proof. change 1 with (2^1-1). rewrite land_ones_mod by lia. change (2^1) with 2. lia. Qed.
Lemma land1_odd x : Z.land (1 + 16 * x) 1 = 1.
Proof. change 1 with (2^1-1) at 2. rewrite land_ones_mod by lia. change (2^1) with 2. lia. Qed.

Lemma lor_low a b x : 0 <= a < 16 -> 0 <= b < 16 -> Z.lor (a + 16 * x) b = Z.lor a b + 16 * x.
Proof.
  intros Ha Hb. replace (a + 16 * x) with (x * 2^4 + a) by (change (2^4) with 16; lia).
  rewrite <- (lor_mul_add x a 4) by (change (2^4) with 16; lia). rewrite <- Z.lor_assoc.
  assert (H : 0 <= Z.lor a b < 2^4).
  { change (2^4) with 16. 
    assert (F : forallb (fun a => forallb (fun b => (0 <=? Z.lor a b) && (Z.lor a b <? 16)) (map Z.of_nat (seq 0 16))) (map Z.of_nat (seq 0 16)) = true) by (vm_compute; reflexivity).
    rewrite forallb_forall in F. specialize (F a). rewrite forallb_forall in F.
    assert (I : forall y, 0 <= y < 16 -> In y (map Z.of_nat (seq 0 16))) by (intros y Hy; apply in_map_iff; exists (Z.to_nat y); split; [lia|apply in_seq; lia]).
    specialize (F (I a Ha) b (I b Hb)). lia. }
  rewrite lor_mul_add by (try lia; exact H). change (2^4) with 16. lia.
Qed.

Lemma bit_result bit s : bit = 0 \/ bit = 1 -> Z.land (bit + 16 * num (mapOf bit) (wOf bit) s) 1 = bit.
Proof. intros [-> | ->]; [apply land1_even|apply land1_odd]. Qed.

Lemma maxOf_if bit : bit = 0 \/ bit = 1 -> (if bit =? 1 then STRID6_MAX else STRID5_MAX) = maxOf bit.
Proof. intros [-> | ->]; reflexivity. Qed.

Lemma num_lt_len bit s k : bit = 0 \/ bit = 1 -> bytes s -> (length s <= k)%nat -> 
  0 <= num (mapOf bit) (wOf bit) s < 2 ^ (wOf bit * Z.of_nat k).
Proof.
  intros Hbit Hb Hl. pose proof (num_range _ _ (wOf_pos bit) (mapOf_range bit) s Hb).
  pose proof (wOf_pos bit).
  split; [lia|]. eapply Z.lt_le_trans; [apply H|]. apply Z.pow_le_mono_r; nia.
Qed.

Lemma from_id s seq bit : bytes s -> s <> [] -> bitFor s = Some bit -> seqFits bit s seq ->
  strIdFrom s seq = Ok (idNum bit s seq).
Proof.
  intros Hb Hne Hbf Hseq. assert (Hbit : bit = 0 \/ bit = 1).
  { unfold bitFor in Hbf. destruct (encodable_dec 0 s); [injection Hbf as <-; auto|]. destruct (encodable_dec 1 s); [injection Hbf as <-; auto|discriminate]. }
  unfold strIdFrom. destruct s as [|c s']; [congruence|]. remember (c :: s') as s. 
  replace (length s =? 0)%nat with false by (subst; reflexivity).
  set (x := num (mapOf bit) (wOf bit) s).
  assert (Hen : encodable bit s).
  { unfold bitFor in Hbf. destruct (encodable_dec 0 s); [injection Hbf as <-; auto|]. destruct (encodable_dec 1 s); [injection Hbf as <-; auto|discriminate]. }
  assert (Hpos : 0 < x).
  { apply num_pos; [apply wOf_pos|apply mapOf_range|exact Hb|apply Hen|subst; discriminate]. }
  assert (R : (if strIdBitFrom 0 s =? 0 then (if strIdBitFrom 1 s =? 0 then Err EFormat else Ok (strIdBitFrom 1 s)) else Ok (strIdBitFrom 0 s))
              = Ok (bit + 16 * x)).
  { unfold bitFor in Hbf. destruct (encodable_dec 0 s) as [H0|H0].
    - injection Hbf as <-. rewrite (bitFrom_ok 0 s) by auto. fold x. replace (0 + 16 * x =? 0) with false by lia. reflexivity.
    - rewrite (bitFrom_fail 0 s) by auto. destruct (encodable_dec 1 s) as [H1|H1]; [|discriminate]. injection Hbf as <-.
      cbn [Z.eqb]. rewrite (bitFrom_ok 1 s) by auto. fold x. replace (1 + 16 * x =? 0) with false by lia. reflexivity. }
  cbv zeta. rewrite R. cbn [bind]. unfold idNum. fold x.
  destruct seq as [n|]; cbn [hdr hbits]; [|f_equal; lia].
  unfold SEQ_HIGH_MIN. cbn [seqFits] in Hseq. destruct (Z.ltb_spec n 6) as [Hn|Hn].
  - rewrite Z.shiftl_mul_pow2 by lia. change (2^1) with 2. f_equal.
    rewrite lor_low by lia. destruct Hbit as [-> | ->].
    + rewrite Z.lor_0_l. lia.
    + change ((n + 1) * 2) with ((n + 1) * 2 ^ 1). rewrite (lor_add_mul (n+1) 1 1) by lia. change (2^1) with 2. lia.
  - destruct Hseq as [Hseq|[Hs37 Hlen]]; [lia|].
    pose proof (bit_result bit s Hbit) as Hbr. fold x in Hbr. rewrite !Hbr. rewrite (maxOf_if bit Hbit).
    replace ((length s <? maxOf bit)%nat && (n <=? SEQ_MAX)) with true.
    2: { symmetry. apply andb_true_intro. split; [apply Nat.ltb_lt; exact Hlen|unfold SEQ_MAX; lia]. }
    f_equal. rewrite Z.shiftr_div_pow2, Z.shiftl_mul_pow2, Z.shiftl_mul_pow2 by lia.
    replace ((bit + 16 * x) / 2 ^ 1 * 2 ^ 6) with (512 * x) by (change (2^1) with 2; change (2^6) with 64; lia).
    assert (Hx : 0 <= x < 2 ^ 55).
    { unfold x. destruct Hbit as [-> | ->].
      - pose proof (num_lt_len 0 s 11 ltac:(auto) Hb ltac:(unfold maxOf, STRID5_MAX in Hlen; cbn in Hlen; lia)) as H. exact H.
      - pose proof (num_lt_len 1 s 9 ltac:(auto) Hb ltac:(unfold maxOf, STRID6_MAX in Hlen; cbn in Hlen; lia)) as H.
        change (2 ^ (wOf 1 * Z.of_nat 9)) with (2^54) in H. split; [apply H|]. eapply Z.lt_trans; [apply H|]. reflexivity. }
    rewrite Z.mod_small by (change (2^64) with (512 * 2^55); lia).
    assert (E : Z.lor (Z.lor ((n - 6) * 2 ^ 4) 14) bit = bit + 14 + 16 * (n - 6)).
    { rewrite lor_mul_add by (change (2^4) with 16; lia). change (2^4) with 16.
      replace ((n-6) * 16 + 14) with (14 + 16 * (n - 6)) by lia. rewrite lor_low by lia. destruct Hbit as [-> | ->]; cbn [Z.lor Pos.lor]; lia. }
    rewrite E. replace (512 * x) with (x * 2 ^ 9) by (change (2^9) with 512; lia).
    rewrite lor_mul_add; [change (2^9) with 512; lia|lia|]. change (2^9) with 512. lia.
Qed.

Lemma land14 b h x : 0 <= b <= 1 -> 0 <= h < 8 -> Z.land (b + 2 * h + 16 * x) 14 = 2 * h.
Proof.
  intros Hb Hh. apply Z.bits_inj'. intros i Hi. rewrite Z.land_spec.
  assert (E : b + 2 * h + 16 * x = Z.lor (x * 2 ^ 4) (Z.lor (h * 2 ^ 1) b)).
  { rewrite (lor_mul_add h b 1) by (change (2^1) with 2; lia). change (2^1) with 2. rewrite lor_mul_add by (change (2^4) with 16; lia).
    change (2^4) with 16. lia. }
  rewrite E, !Z.lor_spec. rewrite <- !Z.shiftl_mul_pow2 by lia.
  destruct (Z.ltb_spec i 4).
  - rewrite Z.shiftl_spec_low by lia. rewrite orb_false_l.
    assert (D : i = 0 \/ i = 1 \/ i = 2 \/ i = 3) by lia.
    assert (Bh : b = 0 \/ b = 1) by lia.
    assert (Hc : h = 0 \/ h = 1 \/ h = 2 \/ h = 3 \/ h = 4 \/ h = 5 \/ h = 6 \/ h = 7) by lia.
    destruct D as [->|[->|[->| ->]]]; destruct Bh as [->| ->];
    destruct Hc as [->|[->|[->|[->|[->|[->|[->| ->]]]]]]]; reflexivity.
  - replace (Z.testbit 14 i) with false by (symmetry; apply Z.bits_above_log2; [lia|change (Z.log2 14) with 3; lia]).
    rewrite andb_false_r. symmetry. destruct (Z.eq_dec h 0) as [->|]; [apply Z.bits_0|].
    apply Z.bits_above_log2; [lia|]. apply Z.log2_lt_pow2; [lia|]. apply Z.lt_le_trans with (2^4); [change (2^4) with 16; lia|].
    apply Z.pow_le_mono_r; lia.
Qed.

Lemma land496 y x : 0 <= y < 512 -> Z.shiftr (Z.land (y + 512 * x) 496) 4 = y / 16.
Proof.
  intros Hy. rewrite Z.shiftr_land. change (Z.shiftr 496 4) with (2^5-1). rewrite land_ones_mod by lia.
  rewrite Z.shiftr_div_pow2 by lia. change (2^4) with 16. change (2^5) with 32. lia.
Qed.

Lemma to_id bit s seq : bit = 0 \/ bit = 1 -> bytes s -> s <> [] -> encodable bit s -> seqFits bit s seq ->
  strIdTo (idNum bit s seq) = Ok s.
Proof.
  intros Hbit Hb Hne Hen Hseq. unfold strIdTo, idNum. set (x := num (mapOf bit) (wOf bit) s).
  assert (Hpos : 0 < x).
  { apply num_pos; [apply wOf_pos|apply mapOf_range|exact Hb|apply Hen|exact Hne]. }
  assert (Hh : 0 <= hdr seq). { destruct seq as [n|]; cbn [hdr seqFits] in *; [destruct (Z.ltb_spec n 6)|]; lia. }
  assert (Hhb : hbits seq = 16 \/ hbits seq = 512). { destruct seq as [n|]; cbn [hbits]; [destruct (n <? 6)|]; auto. }
  replace (bit + hdr seq + hbits seq * x =? 0) with false by (destruct Hhb as [-> | ->]; lia).
  assert (Hl1 : Z.land (bit + hdr seq + hbits seq * x) 1 = bit).
  { change 1 with (2^1-1). rewrite land_ones_mod by lia. change (2^1) with 2.
    assert (hdr seq mod 2 = 0). { destruct seq as [n|]; cbn [hdr]; [destruct (n <? 6)|]; lia. }
    destruct Hhb as [-> | ->]; lia. }
  assert (Hchars : (if Z.land (bit + hdr seq + hbits seq * x) 14 =? 14 then Z.shiftr (bit + hdr seq + hbits seq * x) 9 else Z.shiftr (bit + hdr seq + hbits seq * x) 4) = x).
  { rewrite !Z.shiftr_div_pow2 by lia. change (2^9) with 512. change (2^4) with 16.
    destruct seq as [n|]; cbn [hdr hbits seqFits] in *.
    - destruct (Z.ltb_spec n 6).
      + rewrite (land14 bit (n+1) x) by lia. replace (2 * (n + 1) =? 14) with false by lia. lia.
      + replace (bit + (14 + 16 * (n - 6)) + 512 * x) with (bit + 2 * 7 + 16 * (n - 6 + 32 * x)) by lia.
        rewrite land14 by lia. change (2 * 7 =? 14) with true. cbv iota. lia.
    - replace (bit + 0 + 16 * x) with (bit + 2 * 0 + 16 * x) by lia. rewrite land14 by lia. change (2 * 0 =? 14) with false. cbv iota. lia. }
  rewrite Hl1, Hchars.
  assert (C : strIdChars (unmapOf bit) (wOf bit) (maxOf bit) x = Ok s).
  { apply chars_num; [apply wOf_pos|apply mapOf_range|apply mapOf_un|exact Hb|apply Hen|exact Hne|apply Hen]. }
  destruct Hbit as [-> | ->]; exact C.
Qed.

Lemma seq_id bit s n : bit = 0 \/ bit = 1 -> seqFits bit s (Some n) -> strIdSeq (idNum bit s (Some n)) = Ok n.
Proof.
  intros Hbit Hseq. unfold strIdSeq, idNum. set (x := num _ _ s). cbn [hdr hbits seqFits] in *.
  destruct (Z.ltb_spec n 6).
  - rewrite (land14 bit (n+1) x) by lia. replace (2 * (n+1) =? 14) with false by lia. cbn [negb].
    replace (2 * (n+1) =? 0) with false by lia. rewrite Z.shiftr_div_pow2 by lia. change (2^1) with 2. f_equal. lia.
  - rewrite land496 by lia.
    replace (bit + (14 + 16 * (n - 6)) + 512 * x) with (bit + 2 * 7 + 16 * (n - 6 + 32 * x)) by lia.
    rewrite land14 by lia. change (negb (2 * 7 =? 14)) with false. cbv iota. unfold SEQ_HIGH_MIN. f_equal. lia.
Qed.
Lemma seq_none bit s : bit = 0 \/ bit = 1 -> strIdSeq (idNum bit s None) = Err EAssert.
Proof.
  intros Hbit. unfold strIdSeq, idNum. set (x := num _ _ s). cbn [hdr hbits].
  replace (bit + 0 + 16 * x) with (bit + 2 * 0 + 16 * x) by lia. rewrite land14 by lia. reflexivity.
Qed.

Lemma encodable5 s : bytes s -> encodable 0 s <-> (length s <= 12)%nat /\ Forall char5 s.
Proof.
  intros Hb. unfold encodable. change (maxOf 0) with 12%nat. change (mapOf 0) with map5.
  rewrite !Forall_forall. unfold bytes in Hb. rewrite Forall_forall in Hb.
  split; intros [H1 H2]; (split; [exact H1|]); intros c Hc; apply code5_char; auto.
Qed.
Lemma encodable6 s : bytes s -> encodable 1 s <-> (length s <= 10)%nat /\ Forall char6 s.
Proof.
  intros Hb. unfold encodable. change (maxOf 1) with 10%nat. change (mapOf 1) with map6.
  rewrite !Forall_forall. unfold bytes in Hb. rewrite Forall_forall in Hb.
  split; intros [H1 H2]; (split; [exact H1|]); intros c Hc; apply code6_char; auto.
Qed.

Lemma bitFor_some s : bytes s -> s <> [] -> fits5 s \/ fits6 s -> exists bit, bitFor s = Some bit /\ (bit = 0 \/ bit = 1) /\ encodable bit s /\ (bit = 1 -> ~ fits5 s).
Proof.
  intros Hb Hne H. unfold bitFor. destruct (encodable_dec 0 s) as [H0|H0].
  - exists 0. split; [reflexivity|]. split; [auto|]. split; [exact H0|discriminate].
  - assert (N5 : ~ fits5 s). { intros [F1 F2]. apply H0, encodable5; [exact Hb|]. split; [lia|exact F2]. }
    destruct (encodable_dec 1 s) as [H1|H1]; [exists 1; repeat split; auto; apply H1|].
    exfalso. destruct H as [[F1 F2]|[F1 F2]].
    + apply N5; split; assumption.
    + apply H1, encodable6; [exact Hb|]. split; [lia|exact F2].
Qed.

Lemma seqOk_fits s seq bit : bytes s -> s <> [] -> bitFor s = Some bit -> seqOk s seq -> seqFits bit s seq.
Proof.
  intros Hb Hne Hbf. destruct seq as [n|]; cbn [seqOk seqFits]; [|auto]. intros [H|[H1 H2]]; [auto|right].
  split; [exact H1|]. unfold bitFor in Hbf.
  assert (Hl : (1 <= length s)%nat) by (destruct s; [congruence|cbn; lia]).
  destruct (encodable_dec 0 s) as [E|E].
  - injection Hbf as <-. change (maxOf 0) with 12%nat. destruct H2 as [[_ H2]|[H2 _]]; [exact H2|].
    exfalso. apply H2. apply encodable5 in E; [|exact Hb]. split; [lia|tauto].
  - destruct (encodable_dec 1 s); [injection Hbf as <-|discriminate]. change (maxOf 1) with 10%nat.
    destruct H2 as [[H2 H3]|[_ H2]]; [|exact H2]. exfalso. apply E, encodable5; [exact Hb|]. split; [lia|exact H2].
Qed.

Lemma idNum_range s seq bit : bytes s -> s <> [] -> bit = 0 \/ bit = 1 -> encodable bit s -> seqFits bit s seq -> 0 < idNum bit s seq < 2 ^ 64.
Proof.
  intros Hb Hne Hbit Hen Hseq. unfold idNum. set (x := num _ _ s).
  assert (Hpos : 0 < x).
  { apply num_pos; [apply wOf_pos|apply mapOf_range|exact Hb|apply Hen|exact Hne]. }
  assert (Hx : x < 2 ^ 60).
  { destruct Hbit as [-> | ->]; destruct Hen as [Hl _].
    - pose proof (num_lt_len 0 s 12 ltac:(auto) Hb Hl) as H. apply H.
    - pose proof (num_lt_len 1 s 10 ltac:(auto) Hb Hl) as H. apply H. }
  change (2^64) with (16 * 2^60). destruct seq as [n|]; cbn [hdr hbits seqFits] in *; [destruct (Z.ltb_spec n 6)|]; [lia| |lia].
  destruct Hseq as [?|[Hs Hlen]]; [lia|].
  assert (Hx' : x < 2 ^ 55).
  { unfold x. destruct Hbit as [-> | ->].
    - pose proof (num_lt_len 0 s 11 ltac:(auto) Hb ltac:(unfold maxOf, STRID5_MAX in Hlen; cbn in Hlen; lia)) as H'. apply H'.
    - pose proof (num_lt_len 1 s 9 ltac:(auto) Hb ltac:(unfold maxOf, STRID6_MAX in Hlen; cbn in Hlen; lia)) as H'.
      change (2 ^ (wOf 1 * Z.of_nat 9)) with (2^54) in H'. eapply Z.lt_trans; [apply H'|]. reflexivity. }
  change (2^60) with (32 * 2^55). lia.
Qed.

(** ** Final statements *)
Lemma roundtrip s seq : bytes s -> fits5 s \/ fits6 s -> seqOk s seq ->
  exists id, strIdFrom s seq = Ok id /\ 0 < id < 2 ^ 64 /\ strIdTo id = Ok s /\
    strIdSeq id = match seq with Some n => Ok n | None => Err EAssert end.
Proof.
  intros Hb Hf Hs. assert (Hne : s <> []) by (intros ->; destruct Hf as [[H _]|[H _]]; cbn in H; lia).
  destruct (bitFor_some s Hb Hne Hf) as (bit & Hbf & Hbit & Hen & _).
  pose proof (seqOk_fits s seq bit Hb Hne Hbf Hs) as Hsf.
  exists (idNum bit s seq). split; [apply from_id; assumption|]. split; [apply idNum_range; assumption|].
  split; [apply to_id; assumption|]. destruct seq; [apply (seq_id bit s); assumption|apply seq_none, Hbit].
Qed.

Lemma reject s seq : bytes s -> s <> [] -> ~ fits5 s -> ~ fits6 s -> strIdFrom s seq = Err EFormat.
Proof.
  intros Hb Hne H5 H6. unfold strIdFrom. destruct s as [|c s']; [congruence|]. remember (c :: s') as s.
  replace (length s =? 0)%nat with false by (subst; reflexivity). cbv zeta.
  assert (Hl : (1 <= length s)%nat) by (subst; cbn; lia).
  rewrite (bitFrom_fail 0 s), (bitFrom_fail 1 s); auto.
  - intros H. apply encodable6 in H; [|exact Hb]. apply H6. split; [lia|tauto].
  - intros H. apply encodable5 in H; [|exact Hb]. apply H5. split; [lia|tauto].
Qed.

Lemma from_ok_inv s seq id : bytes s -> (match seq with Some n => 0 <= n | None => True end) -> strIdFrom s seq = Ok id -> (fits5 s \/ fits6 s) /\ seqOk s seq.
Proof.
  intros Hb Hseq E. assert (Hne : s <> []) by (intros ->; cbn in E; discriminate).
  assert (Hl : (1 <= length s)%nat) by (destruct s; [congruence|cbn; lia]).
  assert (Hf : fits5 s \/ fits6 s).
  { destruct (encodable_dec 0 s) as [H|H]; [left; apply encodable5 in H; [split; [lia|tauto]|exact Hb]|].
    destruct (encodable_dec 1 s) as [H1|H1]; [right; apply encodable6 in H1; [split; [lia|tauto]|exact Hb]|].
    exfalso. rewrite (reject s seq) in E; [discriminate|exact Hb|exact Hne| |].
    - intros [F1 F2]. apply H, encodable5; [exact Hb|split; [lia|exact F2]].
    - intros [F1 F2]. apply H1, encodable6; [exact Hb|split; [lia|exact F2]]. }
  split; [exact Hf|]. destruct seq as [n|]; [|exact I]. cbn [seqOk].
  destruct (Z.ltb_spec n 6); [left; lia|right].
  destruct (bitFor_some s Hb Hne Hf) as (bit & Hbf & Hbit & Hen & Hn5).
  pose proof (from_id s None bit Hb Hne Hbf I) as E0.
  unfold strIdFrom in E, E0. destruct (length s =? 0)%nat; [discriminate|]. cbv zeta in E, E0.
  destruct (if strIdBitFrom 0 s =? 0 then _ else _) as [r|e|]; cbn [bind] in E, E0; try discriminate.
  injection E0 as ->. unfold SEQ_HIGH_MIN in E. replace (n <? 6) with false in E by lia.
  unfold idNum in E. cbn [hdr hbits] in E. rewrite Z.add_0_r in E. rewrite (bit_result bit s Hbit) in E. rewrite (maxOf_if bit Hbit) in E.
  destruct (_ && _) eqn:EE in E; [|discriminate]. apply andb_prop in EE. destruct EE as [E1 E2].
  apply Nat.ltb_lt in E1. unfold SEQ_MAX in E2. split; [lia|].
  destruct Hbit as [-> | ->].
  - left. apply encodable5 in Hen; [|exact Hb]. split; [tauto|exact E1].
  - right. split; [apply Hn5; reflexivity|exact E1].
Qed.

Lemma injective s1 q1 s2 q2 id : bytes s1 -> bytes s2 ->
  (match q1 with Some n => 0 <= n | None => True end) -> (match q2 with Some n => 0 <= n | None => True end) ->
  strIdFrom s1 q1 = Ok id -> strIdFrom s2 q2 = Ok id -> s1 = s2 /\ q1 = q2.
Proof.
  intros Hb1 Hb2 Hq1 Hq2 E1 E2.
  destruct (from_ok_inv _ _ _ Hb1 Hq1 E1) as [F1 S1]. destruct (from_ok_inv _ _ _ Hb2 Hq2 E2) as [F2 S2].
  destruct (roundtrip s1 q1 Hb1 F1 S1) as (i1 & A1 & _ & B1 & C1).
  destruct (roundtrip s2 q2 Hb2 F2 S2) as (i2 & A2 & _ & B2 & C2).
  rewrite E1 in A1. rewrite E2 in A2. injection A1 as <-. injection A2 as <-.
  rewrite B1 in B2. injection B2 as B2. split; [exact B2|]. rewrite C1 in C2.
  destruct q1, q2; congruence.
Qed.
