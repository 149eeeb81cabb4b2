From Coq Require Import Sorted.
From Verif Require Import Base Str PageModel PageSpec.
Open Scope nat_scope.

(** * The checksum *)
Lemma round_fnv h v : round h v = fnv h v.
Proof. unfold round, fnv, fnvPrime. rewrite Z.shiftr_div_pow2 by lia. reflexivity. Qed.

Lemma words_nth n : forall l i, length l <= n -> 4 * i + 3 < length l ->
  nth i (words l) 0%Z = (nth (4 * i) l 0 + 256 * nth (4 * i + 1) l 0 + 65536 * nth (4 * i + 2) l 0 + 16777216 * nth (4 * i + 3) l 0)%Z.
Proof.
  induction n as [|n IH]; intros l i Hl Hi; [destruct l; cbn in *; lia|].
  destruct l as [|a [|b [|c [|d r]]]]; cbn [length] in *; try lia. destruct i as [|i]; [reflexivity|].
  cbn [words]. change (nth (S i) (?x :: ?y) 0%Z) with (nth i y 0%Z). rewrite IH by (cbn in *; lia).
  replace (4 * S i) with (S (S (S (S (4 * i))))) by lia. cbn [Nat.add nth]. reflexivity.
Qed.

Lemma words_len n : forall l, length l <= n -> length (words l) = length l / 4.
Proof.
  induction n as [|n IH]; intros l Hl; [destruct l; cbn in *; [reflexivity|lia]|].
  destruct l as [|a [|b [|c [|d r]]]]; try reflexivity. cbn [words length]. rewrite IH by (cbn in Hl; lia).
  replace (S (S (S (S (length r))))) with (length r + 1 * 4) by lia. rewrite Nat.div_add by lia. lia.
Qed.

Lemma zero_len p : 10 <= length p -> length (zeroChecksum p) = length p.
Proof. intros H. unfold zeroChecksum. rewrite !app_length, firstn_length, skipn_length. cbn [length]. lia. Qed.

Lemma skipn_nth (l : list Z) k j : nth j (skipn k l) 0%Z = nth (k + j) l 0%Z.
Proof. revert l. induction k as [|k IH]; intros l; [reflexivity|]. destruct l; [destruct j; reflexivity|]. cbn. apply IH. Qed.

Lemma firstn_nth (l : list Z) k j : j < k -> nth j (firstn k l) 0%Z = nth j l 0%Z.
Proof. revert l j. induction k as [|k IH]; intros l j H; [lia|]. destruct l; [reflexivity|]. destruct j; [reflexivity|]. cbn. apply IH. lia. Qed.

Lemma zero_nth p i : 10 <= length p -> nth i (zeroChecksum p) 0%Z = byteAt p i.
Proof.
  intros H. unfold zeroChecksum, byteAt. assert (L : length (firstn 8 p) = 8) by (rewrite firstn_length; lia).
  destruct (Nat.ltb_spec i 8) as [Hi|Hi].
  - rewrite app_nth1 by lia. rewrite firstn_nth by lia. destruct (Nat.eqb_spec i 8), (Nat.eqb_spec i 9); try lia. reflexivity.
  - rewrite app_nth2, L by lia. destruct (Nat.eqb_spec i 8) as [->|]; [reflexivity|]. destruct (Nat.eqb_spec i 9) as [->|]; [reflexivity|].
    cbn [orb]. rewrite app_nth2 by (cbn; lia). cbn [length]. rewrite skipn_nth. f_equal. lia.
Qed.

Lemma roundRow_len : forall a b, length a = length b -> length (roundRow a b) = length a.
Proof. induction a as [|x a IH]; intros [|y b] H; cbn in *; try lia. rewrite IH; lia. Qed.
Lemma roundRow_nth : forall a b j, length a = length b -> j < length a -> nth j (roundRow a b) 0%Z = round (nth j a 0%Z) (nth j b 0%Z).
Proof. induction a as [|x a IH]; intros [|y b] j H Hj; cbn in *; try lia. destruct j; [reflexivity|]. apply IH; lia. Qed.

Lemma roundRows_spec n : forall sums data, length sums = 32 -> 32 * n <= length data ->
  length (roundRows n sums data) = 32 /\
  forall j, j < 32 -> nth j (roundRows n sums data) 0%Z = fold_left fnv (map (fun i => nth (32 * i + j) data 0%Z) (seq 0 n)) (nth j sums 0%Z).
Proof.
  induction n as [|n IH]; intros sums data Ls Ld; [split; [exact Ls|reflexivity]|]. cbn [roundRows].
  assert (Lr : length (firstn parallelSum data) = 32) by (rewrite firstn_length; unfold parallelSum; lia).
  destruct (IH (roundRow sums (firstn parallelSum data)) (skipn parallelSum data)) as (A & B).
  { rewrite roundRow_len; lia. } { rewrite skipn_length. unfold parallelSum. lia. }
  split; [exact A|]. intros j Hj. rewrite B by exact Hj. rewrite roundRow_nth by lia. rewrite firstn_nth by (unfold parallelSum; lia).
  rewrite round_fnv. cbn [seq map fold_left]. replace (32 * 0 + j) with j by lia. f_equal. rewrite <- seq_shift, map_map. apply map_ext. intros i.
  rewrite skipn_nth. f_equal. unfold parallelSum. lia.
Qed.

Lemma list_as_map (l : list Z) n : length l = n -> l = map (fun j => nth j l 0%Z) (seq 0 n).
Proof.
  revert n. induction l as [|x l IH]; intros n H; destruct n; try discriminate; [reflexivity|]. cbn [seq map nth]. f_equal.
  rewrite <- seq_shift, map_map. cbn [nth]. apply IH. cbn in H. lia.
Qed.

Lemma fold_lxor l : forall a, fold_left Z.lxor l a = Z.lxor a (xorAll l).
Proof.
  induction l as [|x l IH]; intros a; cbn [fold_left xorAll fold_right]; [rewrite Z.lxor_0_r; reflexivity|].
  rewrite IH, Z.lxor_assoc. reflexivity.
Qed.

Lemma valid_mult size : validSize size -> exists m, size = 128 * m /\ 8 <= m /\ 1024 <= size.
Proof.
  intros (k & Hk & ->). exists (8 * 2 ^ k). pose proof (Nat.pow_nonzero 2 k). split; [lia|]. split; lia.
Qed.

Lemma checksum_exact size page block : validSize size -> length page = size -> pgPageChecksum size page block = checksumSpec size page block.
Proof.
  intros V L. destruct (valid_mult size V) as (m & Em & Hm & Hs). unfold pgPageChecksum, checksumSpec. cbv zeta.
  assert (D : size / (4 * parallelSum) = size / 128) by reflexivity. rewrite D.
  assert (Dm : size / 128 = m) by (rewrite Em, Nat.mul_comm, Nat.div_mul by lia; reflexivity).
  assert (Lz : length (zeroChecksum page) = size) by (rewrite zero_len; lia).
  assert (Lw : length (words (zeroChecksum page)) = 32 * m).
  { rewrite (words_len size) by lia. rewrite Lz, Em. replace (128 * m) with (32 * m * 4) by lia. apply Nat.div_mul. lia. }
  destruct (roundRows_spec m sumsInit (words (zeroChecksum page)) eq_refl) as (A & B); [lia|].
  rewrite fold_lxor, Z.lxor_0_l, Dm. do 3 f_equal. rewrite map_map. rewrite (list_as_map (roundRows m sumsInit (words (zeroChecksum page))) 32 A) at 1.
  rewrite map_map. f_equal. apply map_ext_in. intros j Hj. apply in_seq in Hj. rewrite B by lia. rewrite !round_fnv. unfold lane, laneWords.
  rewrite fold_left_app. cbn [fold_left]. do 2 f_equal. rewrite Dm. change (nth j laneSeeds 0%Z) with (nth j sumsInit 0%Z).
  f_equal. apply map_ext_in. intros i Hi. apply in_seq in Hi. rewrite (words_nth size) by lia. unfold wordAt. rewrite !zero_nth by lia. f_equal.
Qed.

Lemma checksum_range size page block : (1 <= pgPageChecksum size page block <= 65535)%Z.
Proof.
  unfold pgPageChecksum. cbv zeta. set (x := Z.lxor _ _). clearbody x. pose proof (Z.mod_pos_bound x 65535). lia.
Qed.

(** The stored checksum has no influence on the computed one. *)
Lemma checksum_stored size p q block : length p = length q -> (forall i, i <> 8 -> i <> 9 -> nth i p 0%Z = nth i q 0%Z) -> validSize size -> length p = size ->
  pgPageChecksum size p block = pgPageChecksum size q block.
Proof.
  intros L H V Lp. rewrite !checksum_exact by (auto; congruence). unfold checksumSpec. do 4 f_equal. apply map_ext. intros j. unfold lane. f_equal.
  unfold laneWords. f_equal. apply map_ext. intros i.
  assert (E : forall k, byteAt p k = byteAt q k).
  { intros k. unfold byteAt. destruct (Nat.eqb_spec k 8); [reflexivity|]. destruct (Nat.eqb_spec k 9); [reflexivity|]. apply H; assumption. }
  unfold wordAt. rewrite !E. reflexivity.
Qed.

(** A page moved to another block within the same 65536 blocks is noticed, but for the complement of the low half. *)
Lemma lxor_hi a b : (0 <= b)%Z -> (Z.lxor a b / 2 ^ 16 = Z.lxor (a / 2 ^ 16) (b / 2 ^ 16))%Z.
Proof. intros. rewrite <- !Z.shiftr_div_pow2 by lia. apply Z.shiftr_lxor. Qed.
Lemma lxor_lo a b : (Z.lxor a b mod 2 ^ 16 = Z.lxor (a mod 2 ^ 16) (b mod 2 ^ 16))%Z.
Proof.
  apply Z.bits_inj'. intros n Hn. destruct (Z.ltb_spec n 16).
  - rewrite !Z.mod_pow2_bits_low, !Z.lxor_spec, !Z.mod_pow2_bits_low by lia. reflexivity.
  - rewrite Z.lxor_spec, !Z.mod_pow2_bits_high by lia. reflexivity.
Qed.

Lemma checksum_moved size page b1 b2 : (0 <= b1)%Z -> (0 <= b2)%Z -> (b1 / 65536 = b2 / 65536)%Z -> b1 <> b2 -> Z.lxor b1 b2 <> 65535%Z ->
  pgPageChecksum size page b1 <> pgPageChecksum size page b2.
Proof.
  intros P1 P2 H N C E. unfold pgPageChecksum in E. cbv zeta in E. set (x := fold_left _ _ _) in E. clearbody x.
  assert (E' : (Z.lxor x b1 mod 65535 = Z.lxor x b2 mod 65535)%Z) by lia. clear E.
  change 65536%Z with (2 ^ 16)%Z in H.
  assert (Hh : (Z.lxor x b1 / 2 ^ 16 = Z.lxor x b2 / 2 ^ 16)%Z) by (rewrite !lxor_hi by lia; congruence).
  assert (X : Z.lxor (Z.lxor x b1) (Z.lxor x b2) = Z.lxor b1 b2).
  { apply Z.bits_inj'. intros n Hn. rewrite !Z.lxor_spec. destruct (Z.testbit x n), (Z.testbit b1 n), (Z.testbit b2 n); reflexivity. }
  revert E' Hh X. generalize (Z.lxor x b1) (Z.lxor x b2). intros y z E' Hh X.
  assert (Ny : y <> z). { intros ->. rewrite Z.lxor_nilpotent in X. symmetry in X. apply Z.lxor_eq in X. contradiction. }
  assert (D : (y = z + 65535 \/ z = y + 65535)%Z).
  { clear -E' Hh Ny. change (2 ^ 16)%Z with 65536%Z in Hh. lia. }
  assert (G : forall u w, (u / 2 ^ 16 = w / 2 ^ 16)%Z -> u = (w + 65535)%Z -> Z.lxor u w = 65535%Z).
  { clear. intros u w Hh D. change (2 ^ 16)%Z with 65536%Z in Hh. assert (Ew : (w mod 65536 = 0 /\ u mod 65536 = 65535)%Z) by lia.
    rewrite (Z.div_mod u (2 ^ 16)), (Z.div_mod w (2 ^ 16)) by lia. change (2 ^ 16)%Z with 65536%Z. rewrite Hh. destruct Ew as (-> & ->).
    rewrite Z.add_0_r. rewrite <- Z.add_0_r at 1. rewrite Z.add_0_r.
    rewrite (Z.mul_comm 65536). change 65536%Z with (2 ^ 16)%Z. rewrite <- (lor_mul_add (w / 2 ^ 16) 65535 16) by lia.
    apply Z.bits_inj'. intros n Hn. rewrite Z.lxor_spec, Z.lor_spec. destruct (Z.ltb_spec n 16).
    - rewrite Z.mul_pow2_bits_low by lia. destruct (Z.testbit 65535 n); reflexivity.
    - replace (Z.testbit 65535 n) with false; [destruct (Z.testbit _ n); reflexivity|]. symmetry. apply Z.bits_above_log2; [lia|]. cbn. lia. }
  destruct D as [D|D]; [apply C; rewrite <- X; apply G; assumption|]. apply C. rewrite <- X, Z.lxor_comm. apply G; [symmetry|]; assumption.
Qed.
