From Verif Require Import Base ConvertModel ConvertSpec.
Open Scope Z_scope.

Lemma pow7 k : 0 <= k -> 2 ^ (7 * (k + 1)) = 128 * 2 ^ (7 * k).
Proof. intros. replace (7 * (k+1)) with (7 + 7 * k) by lia. rewrite Z.pow_add_r by lia. reflexivity. Qed.

Lemma byte_cont v : 0 <= v -> Z.lor (v mod 256) 128 = v mod 128 + 128.
Proof.
  intros H. assert (Hb : isByte (v mod 256)) by (unfold isByte; lia).
  pose proof (byte_sweep (fun b => Z.lor b 128 =? b mod 128 + 128) ltac:(vm_compute; reflexivity) _ Hb) as E.
  cbv beta in E. apply Z.eqb_eq in E. rewrite E. lia.
Qed.
Lemma land127 b : Z.land b 127 = b mod 128.
Proof. change 127 with (2^7-1). rewrite land_ones_mod by lia. reflexivity. Qed.

(** ** Writing *)
Lemma write_ok fuel : forall v, 0 <= v < 2 ^ (7 * Z.of_nat fuel) -> (0 < fuel)%nat ->
  exists t, varIntWrite fuel v = Ok t /\ varIntText t /\ base128 t = v /\ (length t <= fuel)%nat.
Proof.
  induction fuel as [|fuel IH]; intros v Hv Hf; [lia|]. cbn [varIntWrite].
  destruct (Z.leb_spec 128 v) as [H|H].
  - rewrite Z.shiftr_div_pow2 by lia. change (2^7) with 128.
    replace (Z.of_nat (S fuel)) with (Z.of_nat fuel + 1) in Hv by lia. rewrite pow7 in Hv by lia.
    destruct fuel as [|fuel]. { cbn in Hv. lia. }
    destruct (IH (v / 128)) as (t & -> & (pre & l & -> & Hpre & Hl) & Hval & Hlen); [lia|lia|].
    cbn [bind]. rewrite byte_cont by lia. eexists. split; [reflexivity|]. split; [|split].
    + exists ((v mod 128 + 128) :: pre), l. split; [reflexivity|]. split; [constructor; [lia|exact Hpre]|exact Hl].
    + cbn [base128]. rewrite Hval. lia.
    + cbn [length]. lia.
  - exists [v]. split; [reflexivity|]. split; [|split].
    + exists [], v. split; [reflexivity|]. split; [constructor|lia].
    + cbn [base128]. lia.
    + cbn. lia.
Qed.

Lemma acc_bound acc r P : 0 <= acc < P -> 0 <= r < 128 -> 0 <= acc + r * P < 128 * P.
Proof. intros. nia. Qed.
Lemma digit_bound r P M : 0 < P -> 0 <= r < 128 -> 128 * P <= M -> 0 <= r * P < M.
Proof. intros. nia. Qed.

(** ** Reading: exact characterisation *)
Lemma base128_nonneg t : 0 <= base128 t.
Proof. induction t; cbn [base128]; lia. Qed.

Lemma read_text : forall pre l rest left idx acc,
  Forall (fun b => 128 <= b < 256) pre -> 0 <= l < 128 -> (length pre < left)%nat ->
  0 <= idx -> idx + Z.of_nat left = 10 -> 0 <= acc < 2 ^ (7 * idx) ->
  varIntRead left idx acc (pre ++ l :: rest) = Ok ((acc + base128 (pre ++ [l]) * 2 ^ (7 * idx)) mod two64, rest).
Proof.
  assert (Step : forall b idx acc, 0 <= b < 256 -> 0 <= idx <= 9 -> 0 <= acc < 2 ^ (7 * idx) ->
     Z.lor acc (Z.shiftl (Z.land b 127) (7 * idx) mod two64) = (acc + (b mod 128) * 2 ^ (7 * idx)) mod two64 ).
  { intros b idx acc Hb Hi Ha. rewrite land127, Z.shiftl_mul_pow2 by lia.
    assert (Hc : idx < 9 \/ idx = 9) by lia. destruct Hc as [Hc|Hc].
    - assert (P : 128 * 2 ^ (7 * idx) <= 2 ^ 63). { rewrite <- pow7 by lia. apply Z.pow_le_mono_r; lia. }
      change (2^63) with two63 in P. unfold two63, two64 in *.
      pose proof (Z.pow_pos_nonneg 2 (7*idx) ltac:(lia) ltac:(lia)).
      pose proof (Z.mod_pos_bound b 128 ltac:(lia)) as Hbm. 
      pose proof (acc_bound _ _ _ Ha Hbm) as Hs. pose proof (digit_bound _ _ _ H Hbm P) as Hd.
      rewrite (Z.mod_small (b mod 128 * _)) by (clear - Hd; lia).
      rewrite (Z.mod_small (acc + _)) by (clear - Hs P; lia). rewrite lor_add_mul by lia. apply Z.add_comm.
    - subst idx. change (7 * 9) with 63 in *. change (2^63) with two63 in *.
      replace (b mod 128 * two63 mod two64) with ((b mod 2) * two63) by (unfold two63, two64; lia).
      change two63 with (2^63) at 1. rewrite lor_add_mul by (change (2^63) with two63; lia).
      change (2^63) with two63. unfold two63, two64 in *. lia. }
  induction pre as [|b pre IH]; intros l rest left idx acc Hpre Hl Hlen Hi Hsum Hacc;
    (destruct left as [|left]; [cbn [length] in Hlen; lia|]); cbn [app varIntRead].
  - rewrite Step by lia. replace (l <? 128) with true by lia. cbn [base128 app]. do 3 f_equal. ring.
  - inversion_clear Hpre as [|? ? Hb Hp]. cbn [length] in Hlen.
    replace (b <? 128) with false by lia. rewrite Step by lia.
    assert (Hi8 : idx <= 8) by lia.
    pose proof (Z.pow_pos_nonneg 2 (7*idx) ltac:(lia) ltac:(lia)) as Ppos.
    assert (P : 128 * 2 ^ (7 * idx) <= two63). { rewrite <- pow7 by lia. change two63 with (2^63). apply Z.pow_le_mono_r; lia. }
    assert (Hsm : 0 <= acc + b mod 128 * 2 ^ (7 * idx) < 128 * 2 ^ (7 * idx)) 
      by (apply acc_bound; [exact Hacc|apply Z.mod_pos_bound; lia]).
    rewrite (Z.mod_small (acc + b mod 128 * 2 ^ (7 * idx))) by (clear - Hsm P; unfold two63, two64 in *; lia).
    rewrite IH; [|exact Hp|exact Hl|clear - Hlen; lia|clear - Hi; lia|clear - Hsum; lia|rewrite pow7 by (clear - Hi; lia); exact Hsm].
    cbn [base128]. rewrite pow7 by (clear - Hi; lia). do 3 f_equal. ring.
Qed.

Lemma read_inv : forall buf left idx acc v rest,
  Forall isByte buf -> varIntRead left idx acc buf = Ok (v, rest) ->
  exists pre l, buf = pre ++ l :: rest /\ Forall (fun b => 128 <= b < 256) pre /\ 0 <= l < 128 /\ (length pre < left)%nat.
Proof.
  induction buf as [|b buf IH]; intros left idx acc v rest Hb; destruct left as [|left]; cbn [varIntRead]; try discriminate.
  inversion_clear Hb as [|? ? Hb0 Hbb]. unfold isByte in Hb0. destruct (Z.ltb_spec b 128).
  - intros E. injection E as _ <-. exists [], b. split; [reflexivity|]. split; [constructor|]. split; [lia|cbn [length]; lia].
  - intros E. destruct (IH _ _ _ _ _ Hbb E) as (pre & l & -> & Hp & Hl & Hlen).
    exists (b :: pre), l. split; [reflexivity|]. split; [constructor; [split; [assumption|apply Hb0]|exact Hp]|].
    split; [exact Hl|cbn [length]; lia].
Qed.

Lemma from_spec buf v rest : bytes buf ->
  fromVarInt buf = Ok (v, rest) <->
  exists t, buf = t ++ rest /\ varIntText t /\ (length t <= 10)%nat /\ v = base128 t mod two64.
Proof.
  intros Hb. unfold fromVarInt, varIntMax. split.
  - intros E. destruct (read_inv _ _ _ _ _ _ Hb E) as (pre & l & -> & Hp & Hl & Hlen).
    rewrite read_text in E by (try assumption; try lia; cbn; lia).
    injection E as <-. exists (pre ++ [l]). rewrite <- app_assoc. split; [reflexivity|]. split; [exists pre, l; auto|].
    split; [rewrite app_length; cbn; lia|]. change (2 ^ (7 * 0)) with 1. f_equal. lia.
  - intros (t & -> & (pre & l & -> & Hp & Hl) & Hlen & ->). rewrite app_length in Hlen. cbn [length] in Hlen.
    rewrite <- app_assoc. cbn [app]. rewrite read_text by (try assumption; try lia; cbn; lia).
    change (2 ^ (7 * 0)) with 1. do 3 f_equal. lia.
Qed.

Lemma varIntText_bytes t : varIntText t -> bytes t.
Proof.
  intros (pre & l & -> & Hp & Hl). apply Forall_app. split.
  - eapply Forall_impl; [|exact Hp]. unfold isByte. intros; cbv beta in *; lia.
  - constructor; [unfold isByte; lia|constructor].
Qed.

Lemma roundtrip v : isU64 v -> exists t, toVarInt v = Ok t /\ (length t <= 10)%nat /\ varIntText t /\ base128 t = v /\
  forall rest, fromVarInt (t ++ rest) = Ok (v, rest).
Proof.
  intros Hv. unfold isU64 in Hv.
  destruct (write_ok varIntMax v) as (t & Ht & Htext & Hval & Hlen); [|unfold varIntMax; lia|].
  { change (2 ^ (7 * Z.of_nat varIntMax)) with 1180591620717411303424. unfold two64 in Hv. lia. }
  exists t. split; [exact Ht|]. split; [exact Hlen|]. split; [exact Htext|]. split; [exact Hval|]. intros rest.
  destruct Htext as (pre & l & -> & Hp & Hl). rewrite <- app_assoc. unfold fromVarInt, varIntMax.
  rewrite app_length in Hlen. cbn [length] in Hlen. unfold varIntMax in Hlen. cbn [app].
  rewrite read_text by (try assumption; try lia; cbn; lia). rewrite Hval.
  change (2 ^ (7 * 0)) with 1. do 2 f_equal. rewrite Z.mod_small; unfold two64 in *; lia.
Qed.

(** Encodings of at most nine bytes always fit. *)
Lemma base128_bound t : base128 t < 2 ^ (7 * Z.of_nat (length t)).
Proof.
  induction t as [|b t IH]; [cbn; lia|]. cbn [base128 length]. replace (Z.of_nat (S (length t))) with (Z.of_nat (length t) + 1) by lia.
  rewrite pow7 by lia. lia.
Qed.

Lemma read_unterminated buf : forall left idx acc, Forall (fun b => 128 <= b < 256) buf -> varIntRead left idx acc buf = Err EFormat.
Proof.
  induction buf as [|b buf IH]; intros [|left] idx acc H; cbn [varIntRead]; try reflexivity.
  inversion_clear H as [|? ? Hb Hr]. replace (b <? 128) with false by lia. apply IH, Hr.
Qed.

(** ** Zig-zag *)
Lemma lxor_ones n x : 0 <= n -> 0 <= x < 2 ^ n -> Z.lxor x (2 ^ n - 1) = 2 ^ n - 1 - x.
Proof.
  intros Hn Hx. assert (E : 2 ^ n - 1 - x = Z.land (Z.lnot x) (Z.ones n)).
  { rewrite Z.land_ones by lia. unfold Z.lnot. symmetry.
    rewrite <- (Z.mod_small (2^n - 1 - x) (2^n)) by lia.
    replace (2^n - 1 - x) with (Z.pred (- x) + 1 * 2^n) by lia. rewrite Z_mod_plus_full. reflexivity. }
  rewrite E. replace (2^n - 1) with (Z.ones n) by (rewrite Z.ones_equiv; lia).
  apply Z.bits_inj'. intros i Hi. rewrite Z.lxor_spec, Z.land_spec, Z.lnot_spec by lia.
  destruct (Z.ltb_spec i n).
  - rewrite Z.ones_spec_low by lia. destruct (Z.testbit x i); reflexivity.
  - rewrite Z.ones_spec_high by lia. rewrite andb_false_r, xorb_false_r.
    destruct (Z.eq_dec x 0) as [->|]; [apply Z.bits_0|].
    apply Z.bits_above_log2; [lia|]. apply Z.log2_lt_pow2; [lia|].
    apply Z.lt_le_trans with (2 ^ n); [lia|]. apply Z.pow_le_mono_r; lia.
Qed.

Section ZZ.
  Variable w : Z.  (* number of bits *)
  Hypothesis Hw : 1 <= w.
  Let m := 2 ^ w.
  Lemma m_half : m = 2 * 2 ^ (w - 1).
  Proof. unfold m. rewrite <- Z.pow_succ_r by lia. f_equal. lia. Qed.
  Lemma pos_half : 0 < 2 ^ (w - 1).
  Proof. apply Z.pow_pos_nonneg; lia. Qed.

  Lemma zz_gen v : - 2 ^ (w-1) <= v < 2 ^ (w-1) ->
    Z.lxor (toU m (Z.shiftl (toU m v) 1)) (toU m (Z.shiftr v (w-1))) = zz v.
  Proof.
    intros Hv. pose proof m_half as Hm. pose proof pos_half as Hp. unfold toU.
    rewrite Z.shiftl_mul_pow2, Z.shiftr_div_pow2 by lia. change (2 ^ 1) with 2. unfold zz.
    destruct (Z.leb_spec 0 v).
    - rewrite (Z.mod_small v) by lia. rewrite (Z.div_small v) by lia. rewrite (Z.mod_small (v * 2)) by lia.
      rewrite Z.mod_0_l by lia. rewrite Z.lxor_0_r. lia.
    - replace (v / 2 ^ (w-1)) with (-1) by (apply (Z.div_unique v (2^(w-1)) (-1) (v + 2^(w-1))); lia).
      replace (v mod m) with (v + m) by (apply (Z.mod_unique v m (-1)); lia).
      replace ((v + m) * 2 mod m) with (2 * v + m) by (apply (Z.mod_unique _ m 1); lia).
      replace (-1 mod m) with (m - 1) by (apply (Z.mod_unique _ m (-1)); lia).
      unfold m. rewrite lxor_ones by (fold m; lia). fold m. lia.
  Qed.

  Lemma unzz_gen u : 0 <= u < m ->
    toS m (Z.lxor (Z.shiftr u 1) (toU m (toU m (Z.lnot (Z.land u 1)) + 1))) = unzz u.
  Proof.
    intros Hu. pose proof m_half as Hm. pose proof pos_half as Hp.
    rewrite Z.shiftr_div_pow2 by lia. change (2^1) with 2.
    change (Z.land u 1) with (Z.land u (2^1-1)). rewrite land_ones_mod by lia. change (2^1) with 2.
    unfold unzz, toU, toS. rewrite Zeven_mod. unfold Zeq_bool.
    pose proof (Z.mod_pos_bound u 2 ltac:(lia)) as Hb.
    assert (E : u mod 2 = 0 \/ u mod 2 = 1) by lia. destruct E as [E|E]; rewrite E; cbn [Z.compare].
    - change (Z.lnot 0) with (-1). replace (-1 mod m) with (m - 1) by (apply (Z.mod_unique _ m (-1)); lia).
      replace (m - 1 + 1) with m by lia. rewrite Z.mod_same by lia. rewrite Z.lxor_0_r.
      replace (m / 2) with (2 ^ (w-1)) by lia.
      destruct (Z.ltb_spec (u/2) (2^(w-1))); lia.
    - change (Z.lnot 1) with (-2). replace (-2 mod m) with (m - 2) by (apply (Z.mod_unique _ m (-1)); lia).
      rewrite (Z.mod_small (m - 2 + 1)) by lia. replace (m - 2 + 1) with (2 ^ w - 1) by (fold m; lia).
      rewrite lxor_ones by (fold m; lia). fold m. replace (m / 2) with (2 ^ (w-1)) by lia.
      destruct (Z.ltb_spec (m - 1 - u/2) (2^(w-1))); lia.
  Qed.
End ZZ.

Lemma zigZag64_spec v : - two63 <= v < two63 -> zigZag64 v = zz v.
Proof. intros H. apply (zz_gen 64); [lia|]. exact H. Qed.
Lemma unZigZag64_spec u : isU64 u -> unZigZag64 u = unzz u.
Proof. intros H. apply (unzz_gen 64); [lia|]. exact H. Qed.
Lemma zigZag32_spec v : - two31 <= v < two31 -> zigZag32 v = zz v.
Proof. intros H. apply (zz_gen 32); [lia|]. exact H. Qed.
Lemma unZigZag32_spec u : 0 <= u < two32 -> unZigZag32 u = unzz u.
Proof. intros H. apply (unzz_gen 32); [lia|]. exact H. Qed.

Lemma unzz_zz v : unzz (zz v) = v.
Proof.
  unfold zz, unzz. destruct (Z.leb_spec 0 v).
  - rewrite Z.even_mul. cbn [Z.even orb]. lia.
  - replace (-2 * v - 1) with (1 + 2 * (- v - 1)) by lia. rewrite Z.even_add_mul_2. cbn [Z.even]. lia.
Qed.
Lemma zz_unzz u : 0 <= u -> zz (unzz u) = u.
Proof.
  intros H. unfold zz, unzz. rewrite Zeven_mod. unfold Zeq_bool.
  assert (E : u mod 2 = 0 \/ u mod 2 = 1) by lia. destruct E as [E|E]; rewrite E; cbn [Z.compare].
  - destruct (Z.leb_spec 0 (u/2)); lia.
  - destruct (Z.leb_spec 0 (-(u+1)/2)); lia.
Qed.
Lemma zz_range k v : - k <= v < k -> 0 <= zz v < 2 * k.
Proof. unfold zz. destruct (Z.leb_spec 0 v); lia. Qed.
Lemma unzz_range k u : 0 <= u < 2 * k -> - k <= unzz u < k.
Proof. unfold unzz. intros. destruct (Z.even u); lia. Qed.
