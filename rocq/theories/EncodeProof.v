From Verif Require Import Base EncodeModel EncodeSpec.
Open Scope Z_scope.

Lemma ind3 (P : list Z -> Prop) :
  P [] -> (forall a, P [a]) -> (forall a b, P [a; b]) -> (forall a b c l, P l -> P (a :: b :: c :: l)) -> forall l, P l.
Proof.
  intros H0 H1 H2 H3 l.
  assert (H : forall n l, (length l <= n)%nat -> P l).
  { induction n as [|n IH]; intros [|a [|b [|c l']]] Hl; cbn [length] in Hl; auto; try lia.
    apply H3, IH. lia. }
  apply (H (length l)). lia.
Qed.

Lemma ind4 (P : list Z -> Prop) :
  P [] -> (forall a, P [a]) -> (forall a b, P [a; b]) -> (forall a b c, P [a; b; c]) ->
  (forall a b c d l, P l -> P (a :: b :: c :: d :: l)) -> forall l, P l.
Proof.
  intros H0 H1 H2 H3 H4 l.
  assert (H : forall n l, (length l <= n)%nat -> P l).
  { induction n as [|n IH]; intros [|a [|b [|c [|d l']]]] Hl; cbn [length] in Hl; auto; try lia.
    apply H4, IH. lia. }
  apply (H (length l)). lia.
Qed.

Lemma ind2 (P : list Z -> Prop) :
  P [] -> (forall a, P [a]) -> (forall a b l, P l -> P (a :: b :: l)) -> forall l, P l.
Proof.
  intros H0 H1 H2 l.
  assert (H : forall n l, (length l <= n)%nat -> P l).
  { induction n as [|n IH]; intros [|a [|b l']] Hl; cbn [length] in Hl; auto; try lia.
    apply H2, IH. lia. }
  apply (H (length l)). lia.
Qed.

Lemma bytes_cons a l : bytes (a :: l) -> isByte a /\ bytes l.
Proof. intros H. inversion H; subst; split; assumption. Qed.

(** ** Bit expressions as arithmetic *)
Lemma bit_i0 a : isByte a -> Z.shiftr a 2 = a / 4.
Proof. intros. rewrite Z.shiftr_div_pow2 by lia. reflexivity. Qed.
Lemma bit_i1s a : isByte a -> Z.shiftl (Z.land a 3) 4 = a mod 4 * 16.
Proof. intros. change 3 with (2^2-1). rewrite land_ones_mod, Z.shiftl_mul_pow2 by lia. reflexivity. Qed.
Lemma bit_hi4 b : isByte b -> Z.shiftr (Z.land b 240) 4 = b / 16.
Proof.
  intros H. apply Z.eqb_eq.
  apply (byte_sweep (fun b => Z.shiftr (Z.land b 240) 4 =? b / 16)); [vm_compute; reflexivity|exact H].
Qed.
Lemma bit_hi2 b : isByte b -> Z.shiftr (Z.land b 192) 6 = b / 64.
Proof.
  intros H. apply Z.eqb_eq.
  apply (byte_sweep (fun b => Z.shiftr (Z.land b 192) 6 =? b / 64)); [vm_compute; reflexivity|exact H].
Qed.
Lemma bit_i2s b : isByte b -> Z.shiftl (Z.land b 15) 2 = b mod 16 * 4.
Proof. intros. change 15 with (2^4-1). rewrite land_ones_mod, Z.shiftl_mul_pow2 by lia. reflexivity. Qed.
Lemma bit_i1 a b : isByte a -> isByte b ->
  Z.lor (Z.shiftl (Z.land a 3) 4) (Z.shiftr (Z.land b 240) 4) = a mod 4 * 16 + b / 16.
Proof.
  intros Ha Hb. rewrite bit_i1s, bit_hi4 by assumption. unfold isByte in *.
  change 16 with (2^4) at 1. rewrite lor_mul_add; [reflexivity|lia|]. change (2^4) with 16. lia.
Qed.
Lemma bit_i2 b c : isByte b -> isByte c ->
  Z.lor (Z.shiftl (Z.land b 15) 2) (Z.shiftr (Z.land c 192) 6) = b mod 16 * 4 + c / 64.
Proof.
  intros Hb Hc. rewrite bit_i2s, bit_hi2 by assumption. unfold isByte in *.
  change 4 with (2^2) at 1. rewrite lor_mul_add; [reflexivity|lia|]. change (2^2) with 4. lia.
Qed.
Lemma bit_i3 c : isByte c -> Z.land c 63 = c mod 64.
Proof. intros. change 63 with (2^6-1). rewrite land_ones_mod by lia. reflexivity. Qed.

(** ** The alphabet *)
Definition six : list Z := map Z.of_nat (seq 0 64).
Lemma six_spec v : 0 <= v < 64 -> In v six.
Proof. intros H. apply in_map_iff. exists (Z.to_nat v). split; [lia|apply in_seq; lia]. Qed.
Lemma six_sweep (P : Z -> bool) : forallb P six = true -> forall v, 0 <= v < 64 -> P v = true.
Proof. intros H v Hv. rewrite forallb_forall in H. apply H, six_spec, Hv. Qed.

Lemma b64Char_rfc v : 0 <= v < 64 -> b64Char b64Alphabet v = rfcChar 43 47 v.
Proof.
  intros H. apply Z.eqb_eq.
  apply (six_sweep (fun v => b64Char b64Alphabet v =? rfcChar 43 47 v)); [vm_compute; reflexivity|exact H].
Qed.
Lemma b64UrlChar_rfc v : 0 <= v < 64 -> b64Char b64UrlAlphabet v = rfcChar 45 95 v.
Proof.
  intros H. apply Z.eqb_eq.
  apply (six_sweep (fun v => b64Char b64UrlAlphabet v =? rfcChar 45 95 v)); [vm_compute; reflexivity|exact H].
Qed.

Lemma dec_char v : 0 <= v < 64 -> dec decodeBase64Lookup (b64Char b64Alphabet v) = v.
Proof.
  intros H. apply Z.eqb_eq.
  apply (six_sweep (fun v => dec decodeBase64Lookup (b64Char b64Alphabet v) =? v)); [vm_compute; reflexivity|exact H].
Qed.
Lemma char_not_pad v : 0 <= v < 64 -> (b64Char b64Alphabet v =? PAD) = false.
Proof.
  intros H. apply negb_true_iff.
  apply (six_sweep (fun v => negb (b64Char b64Alphabet v =? PAD))); [vm_compute; reflexivity|exact H].
Qed.
Lemma char_isB64 v : 0 <= v < 64 -> isB64Char (b64Char b64Alphabet v).
Proof.
  intros H. rewrite b64Char_rfc by exact H. unfold rfcChar, isB64Char.
  destruct (Z.ltb_spec v 26); [lia|]. destruct (Z.ltb_spec v 52); [lia|].
  destruct (Z.ltb_spec v 62); [lia|]. destruct (Z.eqb_spec v 62); lia.
Qed.

(** ** encode = RFC *)
Ltac feq := repeat match goal with
  | |- _ :: _ = _ :: _ => apply (f_equal2 (@cons Z))
  | |- rfcChar _ _ _ = rfcChar _ _ _ => apply (f_equal (rfcChar _ _))
  end; try reflexivity; try assumption; try lia.

Lemma encodeBase64_rfc src : bytes src -> encodeBase64 src = rfcBase64 43 47 true src.
Proof.
  induction src as [|a|a b|a b c l IH] using ind3; intros H.
  - reflexivity.
  - inversion_clear H as [|? ? Ha _]. cbn [encodeBase64 rfcBase64 app].
    rewrite bit_i0, bit_i1s by assumption. unfold isByte in Ha. rewrite !b64Char_rfc by lia. feq.
  - inversion_clear H as [|? ? Ha H']. inversion_clear H' as [|? ? Hb _]. cbn [encodeBase64 rfcBase64 app].
    rewrite bit_i0, bit_i1, bit_i2s by assumption. unfold isByte in *. rewrite !b64Char_rfc by lia.
    feq.
  - inversion_clear H as [|? ? Ha H']. inversion_clear H' as [|? ? Hb H'']. inversion_clear H'' as [|? ? Hc Hl].
    cbn [encodeBase64 rfcBase64 app]. rewrite bit_i0, bit_i1, bit_i2, bit_i3 by assumption.
    unfold isByte in *. rewrite !b64Char_rfc by lia. rewrite (IH Hl). feq.
Qed.

Lemma encodeBase64Url_rfc src : bytes src -> encodeBase64Url src = rfcBase64 45 95 false src.
Proof.
  induction src as [|a|a b|a b c l IH] using ind3; intros H.
  - reflexivity.
  - inversion_clear H as [|? ? Ha _]. cbn [encodeBase64Url rfcBase64 app].
    rewrite bit_i0, bit_i1s by assumption. unfold isByte in Ha. rewrite !b64UrlChar_rfc by lia. feq.
  - inversion_clear H as [|? ? Ha H']. inversion_clear H' as [|? ? Hb _]. cbn [encodeBase64Url rfcBase64 app].
    rewrite bit_i0, bit_i1, bit_i2s by assumption. unfold isByte in *. rewrite !b64UrlChar_rfc by lia.
    feq.
  - inversion_clear H as [|? ? Ha H']. inversion_clear H' as [|? ? Hb H'']. inversion_clear H'' as [|? ? Hc Hl].
    cbn [encodeBase64Url rfcBase64 app]. rewrite bit_i0, bit_i1, bit_i2, bit_i3 by assumption.
    unfold isByte in *. rewrite !b64UrlChar_rfc by lia. rewrite (IH Hl). feq.
Qed.

Lemma encodeBase64_wf src : bytes src -> wfB64 (encodeBase64 src).
Proof.
  induction src as [|a|a b|a b c l IH] using ind3; intros H.
  - constructor.
  - inversion_clear H as [|? ? Ha _]. cbn [encodeBase64].
    rewrite bit_i0, bit_i1s by assumption. unfold isByte in Ha. apply wf_pad2; apply char_isB64; lia.
  - inversion_clear H as [|? ? Ha H']. inversion_clear H' as [|? ? Hb _]. cbn [encodeBase64].
    rewrite bit_i0, bit_i1, bit_i2s by assumption. unfold isByte in *. apply wf_pad1; apply char_isB64; lia.
  - inversion_clear H as [|? ? Ha H']. inversion_clear H' as [|? ? Hb H'']. inversion_clear H'' as [|? ? Hc Hl].
    cbn [encodeBase64]. rewrite bit_i0, bit_i1, bit_i2, bit_i3 by assumption. unfold isByte in *.
    apply wf_group; try (apply char_isB64; lia). apply IH, Hl.
Qed.

(** ** Validation = well-formedness *)
Definition ascii (s : list Z) : Prop := Forall (fun c => 0 <= c < 128) s.

Lemma lookup_unsigned table c : isByte c -> lookupChar false table c = Ok (dec table c).
Proof.
  intros H. unfold lookupChar, charToInt, dec, isByte in *. cbn [andb].
  replace ((0 <=? c) && (c <? 256)) with true by lia. reflexivity.
Qed.
Lemma lookup_ascii sc table c : 0 <= c < 128 -> lookupChar sc table c = Ok (dec table c).
Proof.
  intros H. unfold lookupChar, charToInt, dec. replace (sc && (128 <=? c)) with false by (destruct sc; cbn; lia).
  replace ((0 <=? c) && (c <? 256)) with true by lia. reflexivity.
Qed.

(** Characters for which every lookup is in range under signedness [sc]. *)
Definition okChar (sc : bool) (c : Z) : Prop := if sc then 0 <= c < 128 else isByte c.
Lemma lookup_ok sc table c : okChar sc c -> lookupChar sc table c = Ok (dec table c).
Proof. destruct sc; cbn [okChar]; intros; [apply lookup_ascii|apply lookup_unsigned]; assumption. Qed.
Lemma okChar_byte sc c : okChar sc c -> isByte c.
Proof. destruct sc; unfold okChar, isByte; lia. Qed.

Lemma dec_invalid_iff c : isByte c -> dec decodeBase64Lookup c <> -1 <-> isB64Char c.
Proof.
  intros H.
  pose proof (byte_sweep (fun c => Bool.eqb (negb (dec decodeBase64Lookup c =? -1))
    (((65 <=? c) && (c <=? 90)) || ((97 <=? c) && (c <=? 122)) || ((48 <=? c) && (c <=? 57)) || (c =? 43) || (c =? 47)))
    ltac:(vm_compute; reflexivity) c H) as E. cbv beta in E. apply eqb_prop in E. unfold isB64Char.
  destruct (Z.eqb_spec (dec decodeBase64Lookup c) (-1)); lia.
Qed.
Lemma dec_range c : isB64Char c -> 0 <= dec decodeBase64Lookup c < 64.
Proof.
  intros H. assert (Hb : isByte c) by (unfold isB64Char, isByte in *; lia).
  pose proof (byte_sweep (fun c => (dec decodeBase64Lookup c =? -1) || ((0 <=? dec decodeBase64Lookup c) && (dec decodeBase64Lookup c <? 64)))
    ltac:(vm_compute; reflexivity) c Hb) as E. cbv beta in E.
  apply (dec_invalid_iff c Hb) in H. lia.
Qed.
Lemma isB64_not_pad c : isB64Char c -> c <> PAD.
Proof. unfold isB64Char, PAD. lia. Qed.

(** One loop step on a character far from the end: accepted iff in the alphabet. *)
Lemma vloop_step sc size lc idx c rest : okChar sc c -> idx < size - 2 ->
  validateBase64Loop sc size lc idx (c :: rest) = Ok tt <->
  isB64Char c /\ validateBase64Loop sc size lc (idx + 1) rest = Ok tt.
Proof.
  intros Hc Hi. cbn [validateBase64Loop]. destruct (Z.eqb_spec c PAD) as [->|Hp].
  - replace (idx <? size - 2) with true by lia. split; [discriminate|]. intros [H _]. apply isB64_not_pad in H. congruence.
  - rewrite lookup_ok by exact Hc. cbn [bind]. pose proof (dec_invalid_iff c (okChar_byte _ _ Hc)) as D.
    destruct (Z.eqb_spec (dec decodeBase64Lookup c) (-1)) as [E|E]; [|tauto].
    split; [discriminate|]. intros [H _]. tauto.
Qed.

(** The last two characters. *)
Lemma vloop_last2 sc size idx c2 c3 : okChar sc c2 -> okChar sc c3 -> idx = size - 2 ->
  validateBase64Loop sc size c3 idx [c2; c3] = Ok tt <->
  (c2 = 61 /\ c3 = 61) \/ (isB64Char c2 /\ (c3 = 61 \/ isB64Char c3)).
Proof.
  intros H2 H3 ->. cbn [validateBase64Loop].
  rewrite !lookup_ok by assumption. cbn [bind].
  pose proof (dec_invalid_iff c2 (okChar_byte _ _ H2)) as D2.
  pose proof (dec_invalid_iff c3 (okChar_byte _ _ H3)) as D3.
  pose proof (isB64_not_pad c2) as N2. pose proof (isB64_not_pad c3) as N3.
  replace (size - 2 <? size - 2) with false by lia.
  replace (size - 2 + 1 <? size - 2) with false by lia.
  replace (size - 2 =? size - 2) with true by lia.
  replace (size - 2 + 1 =? size - 2) with false by lia. cbn [andb]. unfold PAD in *.
  destruct (Z.eqb_spec c2 61); destruct (Z.eqb_spec c3 61);
  destruct (Z.eqb_spec (dec decodeBase64Lookup c2) (-1)); destruct (Z.eqb_spec (dec decodeBase64Lookup c3) (-1));
  cbn [negb]; split; intros HH; try discriminate; try reflexivity; try tauto; lia.
Qed.

Lemma last_cons4 (a b c d : Z) l x : l <> [] -> last (a :: b :: c :: d :: l) x = last l x.
Proof. intros H. destruct l; [congruence|]. reflexivity. Qed.

(** Main lemma: the loop on the remaining (multiple of four) characters. *)
Lemma vloop_wf sc : forall src size idx lc,
  Forall (okChar sc) src -> (Z.of_nat (length src)) mod 4 = 0 -> idx + Z.of_nat (length src) = size ->
  (src <> [] -> lc = last src 0) ->
  validateBase64Loop sc size lc idx src = Ok tt <-> wfB64 src.
Proof.
  induction src as [|a|a b|a b c|a b c d l IH] using ind4; intros size idx lc Hok Hm Hsz Hl.
  - split; [constructor|reflexivity].
  - cbn in Hm. discriminate.
  - cbn in Hm. discriminate.
  - cbn in Hm. discriminate.
  - cbn [length] in *. inversion_clear Hok as [|? ? Ha H1]. inversion_clear H1 as [|? ? Hb H2].
    inversion_clear H2 as [|? ? Hc H3]. inversion_clear H3 as [|? ? Hd Hll].
    rewrite vloop_step by (try assumption; lia). rewrite vloop_step by (try assumption; lia).
    destruct l as [|e l'].
    + rewrite (Hl ltac:(discriminate)). cbn [last]. rewrite vloop_last2 by (try assumption; cbn [length] in Hsz; lia).
      split.
      * intros (A & B & [[-> ->]|[C [->|D]]]).
        -- apply wf_pad2; assumption.
        -- apply wf_pad1; assumption.
        -- apply wf_group; try assumption. constructor.
      * intros W. inversion W; subst; try tauto.
    + remember (e :: l') as l. assert (Hne : l <> []) by (subst; discriminate).
      assert (Hlen : (4 <= length l)%nat). { destruct l; [congruence|]. cbn [length] in *. lia. }
      rewrite vloop_step by (try assumption; lia). rewrite vloop_step by (try assumption; lia).
      rewrite IH; try assumption; try lia.
      * split; [intros (A & B & C & D & E); apply wf_group; assumption|].
        intros W. inversion W; subst; try discriminate. tauto.
      * intros _. rewrite Hl by discriminate. apply last_cons4, Hne.
Qed.

Lemma wfB64_length s : wfB64 s -> (Z.of_nat (length s)) mod 4 = 0.
Proof. induction 1; cbn [length] in *; try reflexivity. lia. Qed.

Lemma validateBase64_iff sc src : Forall (okChar sc) src -> validateBase64 sc src = Ok tt <-> wfB64 src.
Proof.
  intros Hok. unfold validateBase64. destruct (Z.eqb_spec (Z.of_nat (length src) mod 4) 0) as [E|E]; cbn [negb].
  - apply vloop_wf; auto; lia.
  - split; [discriminate|]. intros W. apply wfB64_length in W. contradiction.
Qed.

Lemma validateBase64_noUB sc src : Forall (okChar sc) src -> validateBase64 sc src <> UB.
Proof.
  intros Hok. unfold validateBase64. destruct (negb _); [discriminate|].
  generalize (Z.of_nat (length src)) (last src 0). generalize 0. induction Hok as [|c l Hc Hl IH]; intros idx size lc;
    cbn [validateBase64Loop]; [discriminate|].
  destruct (c =? PAD).
  - destruct (idx <? size - 2); [discriminate|]. destruct (_ && _); [discriminate|]. apply IH.
  - rewrite lookup_ok by exact Hc. cbn [bind]. destruct (_ =? -1); [discriminate|]. apply IH.
Qed.

(** wf characters are ascii so signedness does not matter. *)
Lemma isB64_ok sc c : isB64Char c -> okChar sc c.
Proof. unfold isB64Char. destruct sc; unfold okChar, isByte; lia. Qed.
Lemma wfB64_ok sc s : wfB64 s -> Forall (okChar sc) s.
Proof.
  induction 1; repeat constructor; try (apply isB64_ok; assumption); try assumption;
  destruct sc; unfold okChar, isByte; lia.
Qed.

(** ** Round trip *)
Lemma decode_group v0 v1 v2 v3 : 0 <= v0 < 64 -> 0 <= v1 < 64 -> 0 <= v2 < 64 -> 0 <= v3 < 64 ->
  u8 (Z.lor (Z.shiftl v0 2) (Z.shiftr v1 4)) = v0 * 4 + v1 / 16 /\
  u8 (Z.lor (Z.shiftl v1 4) (Z.shiftr v2 2)) = v1 mod 16 * 16 + v2 / 4 /\
  u8 (Z.lor (Z.land (Z.shiftl v2 6) 192) v3) = v2 mod 4 * 64 + v3.
Proof.
  intros H0 H1 H2 H3. unfold u8. repeat split.
  - rewrite Z.shiftl_mul_pow2, Z.shiftr_div_pow2 by lia. rewrite lor_mul_add; cbn [Z.pow Z.pow_pos Pos.iter]; lia.
  - rewrite Z.shiftl_mul_pow2, Z.shiftr_div_pow2 by lia. rewrite lor_mul_add; cbn [Z.pow Z.pow_pos Pos.iter]; lia.
  - assert (E : Z.land (Z.shiftl v2 6) 192 = v2 mod 4 * 64).
    { apply Z.eqb_eq. apply (six_sweep (fun v => Z.land (Z.shiftl v 6) 192 =? v mod 4 * 64)); [vm_compute; reflexivity|lia]. }
    rewrite E. change 64 with (2^6) at 1. rewrite lor_mul_add; cbn [Z.pow Z.pow_pos Pos.iter]; lia.
Qed.

Lemma decodeLoop_encode src : bytes src -> decodeBase64Loop (encodeBase64 src) = src.
Proof.
  induction src as [|a|a b|a b c l IH] using ind3; intros H.
  - reflexivity.
  - inversion_clear H as [|? ? Ha _]. cbn [encodeBase64 decodeBase64Loop].
    rewrite bit_i0, bit_i1s by assumption. unfold isByte in Ha.
    change (PAD =? PAD) with true. cbn [app]. rewrite !dec_char by lia.
    destruct (decode_group (a/4) (a mod 4 * 16) 0 0 ltac:(lia) ltac:(lia) ltac:(lia) ltac:(lia)) as [-> _].
    f_equal. lia.
  - inversion_clear H as [|? ? Ha H']. inversion_clear H' as [|? ? Hb _]. cbn [encodeBase64 decodeBase64Loop].
    rewrite bit_i0, bit_i1, bit_i2s by assumption. unfold isByte in *.
    change (PAD =? PAD) with true. rewrite char_not_pad by lia. cbn [app]. rewrite !dec_char by lia.
    destruct (decode_group (a/4) (a mod 4 * 16 + b/16) (b mod 16 * 4) 0 ltac:(lia) ltac:(lia) ltac:(lia) ltac:(lia)) as (-> & -> & _).
    feq.
  - inversion_clear H as [|? ? Ha H']. inversion_clear H' as [|? ? Hb H'']. inversion_clear H'' as [|? ? Hc Hl].
    cbn [encodeBase64 decodeBase64Loop]. rewrite bit_i0, bit_i1, bit_i2, bit_i3 by assumption. unfold isByte in *.
    rewrite !char_not_pad by lia. cbn [app]. rewrite !dec_char by lia.
    destruct (decode_group (a/4) (a mod 4 * 16 + b/16) (b mod 16 * 4 + c/64) (c mod 64) ltac:(lia) ltac:(lia) ltac:(lia) ltac:(lia)) as (-> & -> & ->).
    rewrite (IH Hl). feq.
Qed.

Lemma decode_encode sc src : bytes src -> decodeBase64 sc (encodeBase64 src) = Ok src.
Proof.
  intros H. unfold decodeBase64.
  assert (V : validateBase64 sc (encodeBase64 src) = Ok tt).
  { apply validateBase64_iff; [apply wfB64_ok|]; apply encodeBase64_wf, H. }
  rewrite V. cbn [bind]. rewrite decodeLoop_encode by exact H. reflexivity.
Qed.

Lemma encodeBase64_size src : Z.of_nat (length (encodeBase64 src)) = encodeSizeBase64 (Z.of_nat (length src)).
Proof.
  unfold encodeSizeBase64. induction src as [|a|a b|a b c l IH] using ind3; cbn [encodeBase64 length]; try reflexivity.
  rewrite !Nat2Z.inj_succ, IH. lia.
Qed.
Lemma encodeBase64Url_size src : Z.of_nat (length (encodeBase64Url src)) = encodeSizeBase64Url (Z.of_nat (length src)).
Proof.
  unfold encodeSizeBase64Url. induction src as [|a|a b|a b c l IH] using ind3; cbn [encodeBase64Url length]; try reflexivity.
  rewrite !Nat2Z.inj_succ, IH. destruct (Z.eqb_spec (Z.of_nat (length l) mod 3) 0);
  destruct (Z.eqb_spec (Z.succ (Z.succ (Z.succ (Z.of_nat (length l)))) mod 3) 0); lia.
Qed.

(** ** Output size *)
Lemma decodeLoop_size s : wfB64 s ->
  Z.of_nat (length (decodeBase64Loop s)) =
  Z.of_nat (length s) / 4 * 3 -
    (if negb (Z.of_nat (length s) =? 0) && (last s 0 =? PAD)
     then 1 + (if nth (length s - 2) s 0 =? PAD then 1 else 0) else 0).
Proof.
  induction 1 as [|c0 c1 H0 H1|c0 c1 c2 H0 H1 H2|c0 c1 c2 c3 s H0 H1 H2 H3 W IH].
  - reflexivity.
  - cbn. reflexivity.
  - apply isB64_not_pad in H2. apply Z.eqb_neq in H2. cbn [decodeBase64Loop last nth length].
    rewrite H2. change (61 =? PAD) with true. cbn [app length Nat.sub nth negb]. rewrite H2. cbn. reflexivity.
  - pose proof (isB64_not_pad _ H2) as N2. pose proof (isB64_not_pad _ H3) as N3.
    apply Z.eqb_neq in N2, N3. cbn [decodeBase64Loop]. rewrite N2, N3. cbn [app].
    destruct s as [|e s'].
    + cbn [decodeBase64Loop last length]. rewrite N3. cbn. reflexivity.
    + remember (e :: s') as s. assert (Hne : s <> []) by (subst; discriminate).
      rewrite last_cons4 by exact Hne.
      assert (Hlen : (4 <= length s)%nat).
      { pose proof (wfB64_length s W) as L. destruct s; [congruence|]. cbn [length] in *. lia. }
      cbn [length]. rewrite !Nat2Z.inj_succ, IH. clear IH.
      replace (S (S (S (S (length s)))) - 2)%nat with (S (S (S (S (length s - 2))))) by lia.
      cbn [nth]. replace (Z.of_nat (length s) =? 0) with false by lia.
      replace (Z.succ (Z.succ (Z.succ (Z.succ (Z.of_nat (length s))))) =? 0) with false by lia. cbn [negb andb].
      pose proof (wfB64_length s W).
      destruct (last s 0 =? PAD); [|lia]. destruct (nth (length s - 2) s 0 =? PAD); lia.
Qed.

Lemma decode_size sc s out : Forall (okChar sc) s -> decodeBase64 sc s = Ok out ->
  decodeSizeBase64 sc s = Ok (Z.of_nat (length out)).
Proof.
  intros Hok. unfold decodeBase64, decodeSizeBase64. destruct (validateBase64 sc s) as [[]|e|] eqn:V; cbn [bind]; try discriminate.
  intros E. injection E as <-. f_equal. symmetry. apply decodeLoop_size.
  apply (validateBase64_iff sc s Hok). exact V.
Qed.

Lemma decode_accepts sc s : Forall (okChar sc) s -> (exists out, decodeBase64 sc s = Ok out) <-> wfB64 s.
Proof.
  intros Hok. rewrite <- (validateBase64_iff sc s Hok). unfold decodeBase64.
  destruct (validateBase64 sc s) as [[]|e|]; cbn [bind]; split; try discriminate; eauto; intros [? E]; discriminate.
Qed.

Lemma u8_range x : isByte (u8 x).
Proof. unfold u8, isByte. lia. Qed.
Lemma decodeLoop_bytes s : bytes (decodeBase64Loop s).
Proof.
  induction s as [|a|a b|a b c|a b c d l IH] using ind4; cbn [decodeBase64Loop]; try constructor.
  - apply u8_range.
  - apply Forall_app. split; [destruct (c =? PAD); repeat constructor; apply u8_range|].
    apply Forall_app. split; [destruct (d =? PAD); repeat constructor; apply u8_range|exact IH].
Qed.

(** ** Hex *)
Definition nib : list Z := map Z.of_nat (seq 0 16).
Lemma nib_sweep (P : Z -> bool) : forallb P nib = true -> forall v, 0 <= v < 16 -> P v = true.
Proof.
  intros H v Hv. rewrite forallb_forall in H. apply H. apply in_map_iff. exists (Z.to_nat v).
  split; [lia|apply in_seq; lia].
Qed.
Lemma hexDigit_isHex v : 0 <= v < 16 -> isHexChar (hexDigit v).
Proof. intros. unfold hexDigit, isHexChar. destruct (Z.ltb_spec v 10); lia. Qed.

Lemma dec_hex c : isHexChar c -> dec decodeHexLookup c = hexVal c.
Proof.
  intros H. assert (Hb : isByte c) by (unfold isHexChar, isByte in *; lia).
  pose proof (byte_sweep (fun c => negb (((48 <=? c) && (c <=? 57)) || ((65 <=? c) && (c <=? 70)) || ((97 <=? c) && (c <=? 102)))
     || (dec decodeHexLookup c =? hexVal c)) ltac:(vm_compute; reflexivity) c Hb) as E. cbv beta in E.
  unfold isHexChar in H. lia.
Qed.
Lemma dec_hex_invalid_iff c : isByte c -> dec decodeHexLookup c <> -1 <-> isHexChar c.
Proof.
  intros H.
  pose proof (byte_sweep (fun c => Bool.eqb (negb (dec decodeHexLookup c =? -1))
     (((48 <=? c) && (c <=? 57)) || ((65 <=? c) && (c <=? 70)) || ((97 <=? c) && (c <=? 102))))
     ltac:(vm_compute; reflexivity) c H) as E. cbv beta in E. apply eqb_prop in E. unfold isHexChar.
  destruct (Z.eqb_spec (dec decodeHexLookup c) (-1)); lia.
Qed.
Lemma hexVal_range c : isHexChar c -> 0 <= hexVal c < 16.
Proof. unfold isHexChar, hexVal. intros. destruct (Z.leb_spec c 57); [lia|]. destruct (Z.leb_spec c 70); lia. Qed.

Lemma validateHexLoop_iff sc s : Forall (okChar sc) s -> validateHexLoop sc s = Ok tt <-> Forall isHexChar s.
Proof.
  induction 1 as [|c l Hc Hl IH]; cbn [validateHexLoop]; [split; auto|].
  rewrite lookup_ok by exact Hc. cbn [bind]. pose proof (dec_hex_invalid_iff c (okChar_byte _ _ Hc)) as D.
  destruct (Z.eqb_spec (dec decodeHexLookup c) (-1)).
  - split; [discriminate|]. intros F. inversion F; subst. tauto.
  - rewrite IH. split; [intros; constructor; tauto|]. intros F; inversion F; subst; assumption.
Qed.
Lemma validateHex_iff sc s : Forall (okChar sc) s -> validateHex sc s = Ok tt <-> wfHex s.
Proof.
  intros Hok. unfold validateHex, wfHex. destruct (Z.eqb_spec (Z.of_nat (length s) mod 2) 0) as [E|E]; cbn [negb].
  - rewrite (validateHexLoop_iff sc s Hok). split; [|tauto]. intros F. split; [|exact F].
    exists (length s / 2)%nat. lia.
  - split; [discriminate|]. intros [[n Hn] _]. lia.
Qed.
Lemma validateHex_noUB sc s : Forall (okChar sc) s -> validateHex sc s <> UB.
Proof.
  intros Hok. unfold validateHex. destruct (negb _); [discriminate|].
  induction Hok as [|c l Hc Hl IH]; cbn [validateHexLoop]; [discriminate|].
  rewrite lookup_ok by exact Hc. cbn [bind]. destruct (_ =? -1); [discriminate|exact IH].
Qed.
Lemma decodeHexLoop_pairs s : Forall isHexChar s -> decodeHexLoop s = hexPairs s.
Proof.
  induction s as [|a|a b l IH] using ind2; intros H; try reflexivity.
  inversion_clear H as [|? ? Ha H']. inversion_clear H' as [|? ? Hb Hl]. cbn [decodeHexLoop hexPairs].
  rewrite !dec_hex, (IH Hl) by assumption. f_equal.
  pose proof (hexVal_range a Ha). pose proof (hexVal_range b Hb).
  rewrite Z.shiftl_mul_pow2 by lia. unfold u8. rewrite lor_mul_add; cbn [Z.pow Z.pow_pos Pos.iter]; lia.
Qed.

Lemma wfHex_ok sc s : Forall isHexChar s -> Forall (okChar sc) s.
Proof. intros H. eapply Forall_impl; [|exact H]. intros c Hc. unfold isHexChar in Hc. destruct sc; unfold okChar, isByte; lia. Qed.

Lemma decodeHex_spec sc s : Forall (okChar sc) s -> forall out,
  decodeHex sc s = Ok out <-> wfHex s /\ out = hexPairs s.
Proof.
  intros Hok out. unfold decodeHex. pose proof (validateHex_iff sc s Hok) as V.
  destruct (validateHex sc s) as [[]|e|]; cbn [bind].
  - destruct V as [V _]. specialize (V eq_refl). rewrite decodeHexLoop_pairs by apply V. split; [intros E; injection E; auto|].
    intros [_ ->]. reflexivity.
  - split; [discriminate|]. intros [W _]. apply V in W. discriminate.
  - split; [discriminate|]. intros [W _]. apply V in W. discriminate.
Qed.

Lemma encodeHex_wf src : bytes src -> wfHex (encodeHex src).
Proof.
  unfold encodeHex, wfHex. induction 1 as [|b l Hb Hl [[n IH1] IH2]]; [split; [exists 0%nat; reflexivity|constructor]|].
  unfold isByte in Hb. split.
  - exists (S n). cbn [flat_map app length]. lia.
  - cbn [flat_map app]. constructor; [apply hexDigit_isHex; lia|]. constructor; [apply hexDigit_isHex; lia|exact IH2].
Qed.
Lemma hexVal_digit v : 0 <= v < 16 -> hexVal (hexDigit v) = v.
Proof.
  intros H. apply Z.eqb_eq. apply (nib_sweep (fun v => hexVal (hexDigit v) =? v)); [vm_compute; reflexivity|exact H].
Qed.
Lemma hexPairs_encode src : bytes src -> hexPairs (encodeHex src) = src.
Proof.
  unfold encodeHex. induction 1 as [|b l Hb Hl IH]; [reflexivity|]. cbn [flat_map app hexPairs].
  unfold isByte in Hb. rewrite IH, !hexVal_digit by lia. f_equal. lia.
Qed.
Lemma decodeHex_encode sc src : bytes src -> decodeHex sc (encodeHex src) = Ok src.
Proof.
  intros H. apply decodeHex_spec; [apply wfHex_ok, encodeHex_wf, H|].
  split; [apply encodeHex_wf, H|symmetry; apply hexPairs_encode, H].
Qed.
Lemma hexPairs_length s : Nat.Even (length s) -> Z.of_nat (length (hexPairs s)) = Z.of_nat (length s) / 2.
Proof.
  induction s as [|a|a b l IH] using ind2; intros [n Hn]; try reflexivity.
  cbn [hexPairs length]. rewrite !Nat2Z.inj_succ, IH; [lia|]. exists (n-1)%nat. cbn [length] in Hn. lia.
Qed.
Lemma decodeHex_size sc s out : Forall (okChar sc) s -> decodeHex sc s = Ok out ->
  decodeSizeHex sc s = Ok (Z.of_nat (length out)).
Proof.
  intros Hok E. pose proof E as E'. apply decodeHex_spec in E'; [|exact Hok]. destruct E' as [W ->].
  unfold decodeSizeHex. apply (validateHex_iff sc s Hok) in W as V. rewrite V. cbn [bind]. f_equal.
  symmetry. apply hexPairs_length, W.
Qed.
Lemma encodeHex_length src : Z.of_nat (length (encodeHex src)) = encodeSizeHex (Z.of_nat (length src)).
Proof. unfold encodeSizeHex, encodeHex. induction src; cbn [flat_map app length]; lia. Qed.

(** ** Injectivity of the URL encoding (there is no URL decoder in the code). *)
Lemma rfcChar_inj c62 c63 v w : (c62 = 45 /\ c63 = 95) -> 0 <= v < 64 -> 0 <= w < 64 -> rfcChar c62 c63 v = rfcChar c62 c63 w -> v = w.
Proof.
  intros [-> ->] Hv Hw. unfold rfcChar.
  destruct (Z.ltb_spec v 26); destruct (Z.ltb_spec w 26); try lia;
  destruct (Z.ltb_spec v 52); destruct (Z.ltb_spec w 52); try lia;
  destruct (Z.ltb_spec v 62); destruct (Z.ltb_spec w 62); try lia;
  destruct (Z.eqb_spec v 62); destruct (Z.eqb_spec w 62); lia.
Qed.
Lemma rfcUrl_inj s : forall t, bytes s -> bytes t -> rfcBase64 45 95 false s = rfcBase64 45 95 false t -> s = t.
Proof.
  induction s as [|a|a b|a b c l IH] using ind3; intros t Hs Ht;
    destruct t as [|a' [|b' [|c' t']]]; cbn [rfcBase64 app]; intros E; try discriminate;
    try (apply (f_equal (@length Z)) in E; cbn [length] in E; discriminate E); try reflexivity.
  all: repeat match goal with H : bytes (_ :: _) |- _ => apply bytes_cons in H; destruct H end.
  all: unfold isByte in *.
  all: injection E; intros; clear E.
  all: repeat match goal with H : rfcChar _ _ _ = rfcChar _ _ _ |- _ =>
         apply rfcChar_inj in H; [|split; reflexivity|lia|lia] end.
  - f_equal. lia.
  - f_equal; [lia|f_equal; lia].
  - f_equal; [lia|f_equal; [lia|f_equal; [lia|]]]. apply IH; assumption.
Qed.
Lemma encodeUrl_inj s t : bytes s -> bytes t -> encodeBase64Url s = encodeBase64Url t -> s = t.
Proof. intros Hs Ht. rewrite !encodeBase64Url_rfc by assumption. apply rfcUrl_inj; assumption. Qed.
