From Verif Require Import Base Str ConvertModel ConvertProof ConvertSpec ManifestPackModel ManifestPackSpec.
Open Scope Z_scope.

(** * Numbers, bytes and indexes *)
Lemma var_ok v : u64 v -> exists t, toVarInt v = Ok t /\ forall rest, fromVarInt (t ++ rest) = Ok (v, rest).
Proof. intros H. destruct (roundtrip v) as (t & E & _ & _ & _ & R); [unfold isU64, two64, u64 in *; lia|]. eauto. Qed.
Lemma when_ok b v d : u64 v -> exists t, whenVarInt b v = Ok t /\ forall rest, readWhen b d (t ++ rest) = Ok (if b then v else d, rest).
Proof. intros H. unfold whenVarInt, readWhen. destruct b; [now apply var_ok|]. exists []. auto. Qed.
Lemma find_ok l s : In s l -> exists i, findIdx l s = Ok i /\ 0 <= i < Z.of_nat (length l) /\ nth_error l (Z.to_nat i) = Some s.
Proof.
  induction l as [|x l IH]; [intros []|]. intros H. cbn [findIdx length]. destruct (strEqb x s) eqn:E.
  - apply strEqb_eq in E. subst. exists 0. split; [reflexivity|]. split; [lia|reflexivity].
  - destruct H as [-> |H]; [rewrite strEqb_refl in E; discriminate|]. destruct (IH H) as (i & -> & Hi & Hn). cbn [bind]. exists (i + 1).
    split; [reflexivity|]. split; [lia|]. replace (Z.to_nat (i + 1)) with (S (Z.to_nat i)) by lia. exact Hn.
Qed.
Lemma idx_ok b l e s d : lenOk l -> (b = true -> exists s0, s = Some s0 /\ In s0 l) ->
  exists t, whenIdx b l s = Ok t /\ forall rest, readIdx b (l ++ e) d (t ++ rest) = Ok (if b then s else d, rest).
Proof.
  intros Hl Hs. unfold whenIdx, readIdx. destruct b; [|exists []; auto]. destruct (Hs eq_refl) as (s0 & -> & Hi).
  destruct (find_ok l s0 Hi) as (i & -> & Hr & Hn). cbn [bind]. unfold lenOk in Hl. destruct (var_ok i) as (t & -> & Ht); [unfold u64; lia|].
  exists t. split; [reflexivity|]. intros rest. rewrite Ht. cbn [bind]. unfold strLstGet, two32. rewrite Z.mod_small by lia.
  rewrite nth_error_app1; [now rewrite Hn|]. apply nth_error_Some. congruence.
Qed.
Lemma bytes_ok o rest : shaOk o -> readBytes (isSome o) (optBytes o ++ rest) = Ok (o, rest).
Proof.
  destruct o as [s|]; [|reflexivity]. cbn [shaOk isSome optBytes]. intros H. unfold readBytes, HASH_TYPE_SHA1_SIZE. rewrite <- H, firstn_all, app_length.
  destruct (Nat.ltb_spec (length s + length rest) (length s)); [lia|].
  rewrite firstn_app, firstn_all, Nat.sub_diag, skipn_app, skipn_all, Nat.sub_diag. cbn [firstn skipn app]. now rewrite app_nil_r.
Qed.
Lemma strPub_ok s rest : lenOk s -> readStrPub (strPub (Z.of_nat (length s)) ++ s ++ [0] ++ rest) = Ok (s, rest).
Proof.
  intros H. assert (E : skipn STRINGPUB_SIZE (strPub (Z.of_nat (length s)) ++ s ++ [0] ++ rest) = s ++ [0] ++ rest) by reflexivity.
  unfold readStrPub. rewrite E. unfold strPub. cbn [app]. unfold lenOk, two32 in *. rewrite Z.mod_small by lia. rewrite Nat2Z.id, app_length. cbn [length].
  destruct (Nat.ltb_spec (length s) (length s + S (length rest))); [|lia].
  rewrite firstn_app, firstn_all, Nat.sub_diag. cbn [firstn]. rewrite app_nil_r. rewrite skipn_app, skipn_all2 by lia.
  replace (S (length s) - length s)%nat with 1%nat by lia. reflexivity.
Qed.

(** * Flags *)
Lemma shift1_bit i n : 0 <= i -> 0 <= n -> Z.testbit (Z.shiftl 1 i) n = (i =? n).
Proof. intros Hi Hn. rewrite Z.shiftl_1_l, Z.pow2_bits_eqb by lia. reflexivity. Qed.
Lemma flags_bit l : forall a n, 0 <= n -> Forall (fun p : bool * Z => 0 <= snd p) l ->
  Z.testbit (fold_left (fun a (p : bool * Z) => if fst p then Z.lor a (Z.shiftl 1 (snd p)) else a) l a) n =
  Z.testbit a n || existsb (fun p => fst p && (snd p =? n)) l.
Proof.
  induction l as [|[b i] l IH]; intros a n Hn Hl; cbn [fold_left existsb fst snd]; [now rewrite orb_false_r|].
  inversion Hl; subst. cbn [snd] in *. rewrite IH by assumption. destruct b; cbn [andb]; [|reflexivity].
  rewrite Z.lor_spec, shift1_bit by assumption. now rewrite orb_assoc.
Qed.
Lemma lor_lt a b n : 0 <= n -> 0 <= a < 2 ^ n -> 0 <= b < 2 ^ n -> 0 <= Z.lor a b < 2 ^ n.
Proof.
  intros Hn Ha Hb. assert (H0 : 0 <= Z.lor a b) by (apply Z.lor_nonneg; lia). split; [exact H0|].
  destruct (Z.eq_dec (Z.lor a b) 0) as [E|E]; [rewrite E; lia|]. apply Z.log2_lt_pow2; [lia|]. rewrite Z.log2_lor by lia.
  apply Z.max_lub_lt.
  - destruct (Z.eq_dec a 0) as [->|]; [|apply Z.log2_lt_pow2; lia]. change (Z.log2 0) with 0. destruct (Z.eq_dec n 0) as [->|]; [|lia]. cbn in *. assert (b = 0) by lia. subst. cbn in E. lia.
  - destruct (Z.eq_dec b 0) as [->|]; [|apply Z.log2_lt_pow2; lia]. change (Z.log2 0) with 0. destruct (Z.eq_dec n 0) as [->|]; [|lia]. cbn in *. assert (a = 0) by lia. subst. cbn in E. lia.
Qed.
Lemma flags_lt l : forall a, 0 <= a < 2 ^ 20 -> Forall (fun p : bool * Z => 0 <= snd p < 20) l ->
  0 <= fold_left (fun a (p : bool * Z) => if fst p then Z.lor a (Z.shiftl 1 (snd p)) else a) l a < 2 ^ 20.
Proof.
  induction l as [|[b i] l IH]; intros a Ha Hl; cbn [fold_left fst snd]; [exact Ha|]. inversion Hl; subst. cbn [snd] in *. apply IH; [|assumption].
  destruct b; [|exact Ha]. apply lor_lt; [lia|exact Ha|]. rewrite Z.shiftl_1_l. split; [lia|]. apply Z.pow_lt_mono_r; lia.
Qed.
Lemma packFlags_lt x f : u64 (packFlags x f).
Proof. unfold u64. enough (0 <= packFlags x f < 2 ^ 20) by lia. apply flags_lt; [lia|]. repeat (apply Forall_cons; [cbv [snd fChecksum fChecksumRepo fReference fBundle fBlockIncr fCopy fDelta fResume fChecksumPage fChecksumPageError fChecksumPageErrorList fSizeOriginal fMode fUser fUserNull fGroup fGroupNull]; lia|]); apply Forall_nil. Qed.
Ltac bit := intros; unfold packFlags; rewrite flags_bit; [cbn; rewrite ?andb_true_r, ?andb_false_r, ?orb_false_r, ?orb_false_l; reflexivity|apply Z.leb_le; reflexivity|repeat (apply Forall_cons; [cbv [snd fChecksum fChecksumRepo fReference fBundle fBlockIncr fCopy fDelta fResume fChecksumPage fChecksumPageError fChecksumPageErrorList fSizeOriginal fMode fUser fUserNull fGroup fGroupNull]; lia|]); apply Forall_nil].
Lemma bit0 x f : Z.testbit (packFlags x f) fChecksum = isSome (mfSha1 f). Proof. bit. Qed.
Lemma bit1 x f : Z.testbit (packFlags x f) fChecksumRepo = isSome (mfRepoSha1 f). Proof. bit. Qed.
Lemma bit2 x f : Z.testbit (packFlags x f) fReference = isSome (mfReference f). Proof. bit. Qed.
Lemma bit3 x f : Z.testbit (packFlags x f) fBundle = negb (mfBundleId f =? 0). Proof. bit. Qed.
Lemma bit4 x f : Z.testbit (packFlags x f) fBlockIncr = negb (mfBlockSize f =? 0). Proof. bit. Qed.
Lemma bit5 x f : Z.testbit (packFlags x f) fCopy = mfCopy f. Proof. bit. Qed.
Lemma bit6 x f : Z.testbit (packFlags x f) fDelta = mfDelta f. Proof. bit. Qed.
Lemma bit7 x f : Z.testbit (packFlags x f) fResume = mfResume f. Proof. bit. Qed.
Lemma bit8 x f : Z.testbit (packFlags x f) fChecksumPage = mfChecksumPage f. Proof. bit. Qed.
Lemma bit9 x f : Z.testbit (packFlags x f) fChecksumPageError = mfChecksumPageError f. Proof. bit. Qed.
Lemma bit10 x f : Z.testbit (packFlags x f) fChecksumPageErrorList = isSome (mfErrorList f). Proof. bit. Qed.
Lemma bit11 x f : Z.testbit (packFlags x f) fSizeOriginal = negb (mfSizeOriginal f =? mfSize f). Proof. bit. Qed.
Lemma bit12 x f : Z.testbit (packFlags x f) fMode = negb (mfMode f =? mxMode x). Proof. bit. Qed.
Lemma bit13 x f : Z.testbit (packFlags x f) fUser = isSome (mfUser f) && negb (optStrEq (mfUser f) (mxUser x)). Proof. bit. Qed.
Lemma bit14 x f : Z.testbit (packFlags x f) fUserNull = negb (isSome (mfUser f)). Proof. bit. Qed.
Lemma bit15 x f : Z.testbit (packFlags x f) fGroup = isSome (mfGroup f) && negb (optStrEq (mfGroup f) (mxGroup x)). Proof. bit. Qed.
Lemma bit16 x f : Z.testbit (packFlags x f) fGroupNull = negb (isSome (mfGroup f)). Proof. bit. Qed.

(** * Pack and unpack *)
Lemma timeSub_ok a b : - 2 ^ 63 <= a - b < 2 ^ 63 -> timeSub a b = Ok (a - b).
Proof.
  intros H. unfold timeSub, two63. replace ((- (9223372036854775808) <=? a - b) && (a - b <? 9223372036854775808)) with true; [reflexivity|].
  symmetry. apply andb_true_intro. split; [apply Z.leb_le|apply Z.ltb_lt]; lia.
Qed.
Lemma zigzag_ok d : - 2 ^ 63 <= d < 2 ^ 63 -> u64 (zigZag64 d) /\ unZigZag64 (zigZag64 d) = d.
Proof.
  intros H. pose proof (zz_range (2^63) d H) as R. rewrite zigZag64_spec by exact H. split; [unfold u64; lia|]. rewrite unZigZag64_spec by (unfold isU64, two64; lia). apply unzz_zz.
Qed.
Lemma owner_pick d d' o : (if isSome o && negb (optStrEq o d) then o else if negb (isSome o) then None else d') = owner d d' o.
Proof. destruct o as [s|]; cbn; [|reflexivity]. destruct d as [s'|]; cbn; [destruct (strEqb s s'); reflexivity|reflexivity]. Qed.
Lemma owner_idx d o l : (forall s, o = Some s -> In s l) -> isSome o && negb (optStrEq o d) = true -> exists s, o = Some s /\ In s l.
Proof. intros H E. destruct o as [s|]; [|discriminate]. eauto. Qed.
Lemma align16 n : ALIGN_OFFSET (16 + n) = ALIGN_OFFSET n.
Proof. unfold ALIGN_OFFSET. f_equal. replace (16 + n)%nat with (n + 2 * 8)%nat by lia. apply Nat.mod_add. lia. Qed.
Lemma skipn_len {A} (a b : list A) n : n = length a -> skipn n (a ++ b) = b.
Proof. intros ->. rewrite skipn_app, skipn_all, Nat.sub_diag. reflexivity. Qed.

Theorem pack_ok x bt f : fileOk (baseTimeSet bt f) f -> namesKnown x f ->
  exists p, manifestFilePack x bt f = Ok (p, baseTimeSet bt f) /\ forall x', extends x x' -> manifestFileUnpack x' (baseTimeSet bt f) p = Ok (stored x x' f).
Proof.
  intros (H1 & H2 & H3 & H4 & H5 & H6 & H7 & H8 & H9 & H10 & H11 & H12 & H13 & H14 & H15 & H16) (N1 & N2 & N3 & N4 & N5).
  unfold manifestFilePack, packData. cbv zeta. set (b := baseTimeSet bt f) in *.
  destruct (var_ok (packFlags x f) (packFlags_lt x f)) as (t1 & E1 & R1).
  destruct (var_ok (mfSize f) H12) as (t2 & E2 & R2).
  destruct (when_ok (Z.testbit (packFlags x f) fSizeOriginal) (mfSizeOriginal f) (mfSize f) H13) as (t3 & E3 & R3).
  destruct (zigzag_ok _ H16) as [Z1 Z2]. destruct (var_ok _ Z1) as (t4 & E4 & R4).
  assert (U6 : u64 (mfMode f)) by (unfold u64; lia).
  destruct (var_ok (mfSizeRepo f) H14) as (t9 & E9 & R9).
  destruct (when_ok (Z.testbit (packFlags x f) fBundle) (mfBundleId f) 0 H6) as (t10 & E10 & R10).
  destruct (when_ok (Z.testbit (packFlags x f) fBundle) (mfBundleOffset f) 0 H7) as (t11 & E11 & R11).
  assert (U12 : u64 (mfBlockSize f / BLOCK_INCR_SIZE_FACTOR)) by (unfold u64, BLOCK_INCR_SIZE_FACTOR in *; lia).
  destruct (when_ok (Z.testbit (packFlags x f) fBlockIncr) (mfBlockSize f / BLOCK_INCR_SIZE_FACTOR) 0 U12) as (t12 & E12 & R12).
  destruct (when_ok (Z.testbit (packFlags x f) fBlockIncr) (mfBlockChecksumSize f) 0 H10) as (t13 & E13 & R13).
  destruct (when_ok (Z.testbit (packFlags x f) fBlockIncr) (mfBlockMapSize f) 0 H11) as (t14 & E14 & R14).
  assert (Q5 : isSome (mfReference f) = true -> exists s0, mfReference f = Some s0 /\ In s0 (mxReferences x)).
  { intros E. destruct (mfReference f) as [r|]; [eauto|discriminate]. }
  assert (Q7 : Z.testbit (packFlags x f) fUser = true -> exists s, mfUser f = Some s /\ In s (mxOwners x)) by (rewrite bit13; now apply owner_idx).
  assert (Q8 : Z.testbit (packFlags x f) fGroup = true -> exists s, mfGroup f = Some s /\ In s (mxOwners x)) by (rewrite bit15; now apply owner_idx).
  destruct (idx_ok (isSome (mfReference f)) (mxReferences x) [] (mfReference f) None N1 Q5) as (t5 & E5 & _).
  destruct (when_ok (Z.testbit (packFlags x f) fMode) (mfMode f) 0 U6) as (t6 & E6 & _).
  destruct (idx_ok (Z.testbit (packFlags x f) fUser) (mxOwners x) [] (mfUser f) None N2 Q7) as (t7 & E7 & _).
  destruct (idx_ok (Z.testbit (packFlags x f) fGroup) (mxOwners x) [] (mfGroup f) None N2 Q8) as (t8 & E8 & _).
  rewrite E1, E2, E3, (timeSub_ok _ _ H16). cbn [bind]. rewrite E4, E5, E6, E7, E8, E9, E10, E11, E12, E13, E14. cbn [bind].
  eexists. split; [reflexivity|]. intros x' ((er & Er) & (eo & Eo) & Hm). unfold manifestFileUnpack.
  set (data := t1 ++ t2 ++ t3 ++ t4 ++ optBytes (mfSha1 f) ++ optBytes (mfRepoSha1 f) ++ t5 ++ t6 ++ t7 ++ t8 ++ t9 ++ t10 ++ t11 ++ t12 ++ t13 ++ t14).
  set (tail := match mfErrorList f with
      | Some e => repeat 0 (ALIGN_OFFSET (S (length (mfName f)) + length data)) ++ strPub (Z.of_nat (length e)) ++ e ++ [0]
      | None => []
      end).
  set (pack := strPub (Z.of_nat (length (mfName f))) ++ mfName f ++ [0] ++ data ++ tail).
  assert (Ep : readStrPub pack = Ok (mfName f, data ++ tail)) by (now apply strPub_ok). rewrite Ep. cbn [bind].
  destruct (idx_ok (isSome (mfReference f)) (mxReferences x) er (mfReference f) None N1 Q5) as (t5' & E5' & R5).
  destruct (when_ok (Z.testbit (packFlags x f) fMode) (mfMode f) (mxMode x') U6) as (t6' & E6' & R6).
  destruct (idx_ok (Z.testbit (packFlags x f) fUser) (mxOwners x) eo (mfUser f) (if Z.testbit (packFlags x f) fUserNull then None else mxUser x') N2 Q7) as (t7' & E7' & R7).
  destruct (idx_ok (Z.testbit (packFlags x f) fGroup) (mxOwners x) eo (mfGroup f) (if Z.testbit (packFlags x f) fGroupNull then None else mxGroup x') N2 Q8) as (t8' & E8' & R8).
  assert (t5' = t5) by congruence. assert (t6' = t6) by congruence. assert (t7' = t7) by congruence. assert (t8' = t8) by congruence. subst t5' t6' t7' t8'.
  assert (Ed : data ++ tail = t1 ++ t2 ++ t3 ++ t4 ++ optBytes (mfSha1 f) ++ optBytes (mfRepoSha1 f) ++ t5 ++ t6 ++ t7 ++ t8 ++ t9 ++ t10 ++ t11 ++ t12 ++ t13 ++ t14 ++ tail)
    by (unfold data; rewrite <- !app_assoc; reflexivity).
  rewrite Ed, R1. cbn [bind]. rewrite R2. cbn [bind]. rewrite R3. cbn [bind]. rewrite R4. cbn [bind]. rewrite Z2, timeSub_ok by lia. cbn [bind].
  rewrite bit0, (bytes_ok _ _ H3). cbn [bind]. rewrite bit1, (bytes_ok _ _ H4). cbn [bind]. rewrite bit2, Er, R5. cbn [bind]. rewrite R6. cbn [bind].
  rewrite Eo, R7. cbn [bind]. rewrite R8. cbn [bind]. rewrite R9. cbn [bind]. rewrite R10. cbn [bind]. rewrite R11. cbn [bind]. rewrite R12. cbn [bind].
  rewrite R13. cbn [bind]. rewrite R14. cbn [bind].
  assert (Epos : (length pack - length tail = 16 + (S (length (mfName f)) + length data))%nat).
  { unfold pack, strPub. rewrite !app_length. cbn [length repeat]. lia. }
  rewrite Epos, align16, bit10.
  assert (Ee : (if isSome (mfErrorList f) then
      let* (e, _) := readStrPub (skipn (16 + (S (length (mfName f)) + length data) + ALIGN_OFFSET (S (length (mfName f)) + length data)) pack) in Ok (Some e)
      else Ok None) = Ok (mfErrorList f)).
  { destruct (mfErrorList f) as [e|] eqn:Ee; [|reflexivity]. cbn [isSome].
    assert (Es : skipn (16 + (S (length (mfName f)) + length data) + ALIGN_OFFSET (S (length (mfName f)) + length data)) pack = strPub (Z.of_nat (length e)) ++ e ++ [0] ++ []).
    { unfold pack, tail. replace (strPub (Z.of_nat (length (mfName f))) ++ mfName f ++ [0] ++ data ++ repeat 0 (ALIGN_OFFSET (S (length (mfName f)) + length data)) ++ strPub (Z.of_nat (length e)) ++ e ++ [0])
        with ((strPub (Z.of_nat (length (mfName f))) ++ mfName f ++ [0] ++ data ++ repeat 0 (ALIGN_OFFSET (S (length (mfName f)) + length data))) ++ strPub (Z.of_nat (length e)) ++ e ++ [0])
        by (rewrite <- !app_assoc; reflexivity).
      apply skipn_len. rewrite !app_length, repeat_length. unfold strPub. cbn [length repeat]. lia. }
    rewrite Es, (strPub_ok e []) by exact H2. reflexivity. }
  rewrite Ee. cbn [bind]. rewrite bit3, bit4, bit5, bit6, bit7, bit8, bit9, bit11, bit12, bit13, bit14, bit15, bit16, !owner_pick. unfold stored. f_equal.
  assert (Eref : (if isSome (mfReference f) then mfReference f else None) = mfReference f) by (destruct (mfReference f); reflexivity). rewrite Eref.
  assert (Emode : (if negb (mfMode f =? mxMode x) then mfMode f else mxMode x') mod two32 = if mfMode f =? mxMode x then mxMode x' else mfMode f).
  { unfold two32. destruct (mfMode f =? mxMode x); cbn [negb]; apply Z.mod_small; lia. }
  rewrite Emode.
  assert (Eblk : (if negb (mfBlockSize f =? 0) then mfBlockSize f / BLOCK_INCR_SIZE_FACTOR else 0) * BLOCK_INCR_SIZE_FACTOR mod two64 = mfBlockSize f).
  { unfold two64, BLOCK_INCR_SIZE_FACTOR, u64 in *. destruct (Z.eqb_spec (mfBlockSize f) 0) as [->|]; cbn [negb]; [reflexivity|]. destruct H9 as [k Hk]. rewrite Hk, Z.div_mul by lia. apply Z.mod_small. lia. }
  rewrite Eblk.
  assert (Eso : (if negb (mfSizeOriginal f =? mfSize f) then mfSizeOriginal f else mfSize f) = mfSizeOriginal f) by (destruct (Z.eqb_spec (mfSizeOriginal f) (mfSize f)); cbn; lia).
  rewrite Eso.
  assert (Ets : b - (b - mfTimestamp f) = mfTimestamp f) by lia. rewrite Ets.
  assert (Ebi : (if negb (mfBundleId f =? 0) then mfBundleId f else 0) = mfBundleId f) by (destruct (Z.eqb_spec (mfBundleId f) 0); cbn; lia). rewrite Ebi.
  destruct (mfBundleId f =? 0), (mfBlockSize f =? 0); reflexivity.
Qed.
