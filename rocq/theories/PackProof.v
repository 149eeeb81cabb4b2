From Verif Require Import Base ConvertModel ConvertSpec ConvertProof PackModel PackSpec.
Open Scope Z_scope.

(** * Tags *)
Lemma known_cases t : typeKnown t = true -> In t [1;2;3;4;5;7;8;9;10;15;16;17;18].
Proof. unfold typeKnown. intros H. apply existsb_exists in H. destruct H as (x & Hx & E). apply Z.eqb_eq in E. now subst. Qed.
Ltac cases_in H := repeat (destruct H as [H|H]; [subst|]); [..|destruct H].

Lemma shl_join k d : 0 < k < 32 -> 0 <= d < two32 -> Z.lor (d mod 2 ^ k) (uintShl (d / 2 ^ k) k) = d.
Proof.
  intros Hk Hd. unfold uintShl. pose proof (Z.pow_pos_nonneg 2 k ltac:(lia) ltac:(lia)) as P. assert (Q : 0 <= d / 2 ^ k < two32).
  { split; [apply Z.div_pos; lia|]. apply Z.le_lt_trans with d; [|lia]. apply Z.div_le_upper_bound; [lia|]. nia. }
  rewrite (Z.mod_small (d / 2 ^ k)) by exact Q. rewrite Z.shiftl_mul_pow2 by lia. pose proof (Z.div_mod d (2 ^ k) ltac:(lia)) as E. pose proof (Z.mod_pos_bound d (2 ^ k) P) as M.
  rewrite (Z.mod_small (d / 2 ^ k * 2 ^ k)) by nia. rewrite lor_add_mul by lia. lia.
Qed.
Lemma land_mod d k : 0 <= k -> Z.land d (2 ^ k - 1) = d mod 2 ^ k.
Proof. intros. now apply land_ones_mod. Qed.

Definition head4 (t : Z) : Z := if 15 <=? t then 15 else t.
Definition tag0 (t : Z) : Z := if 15 <=? t then 240 else Z.shiftl t 4.
Definition bitcase (x : Z) (n : nat) : Prop := In x (map Z.of_nat (seq 0 n)).
Lemma bitcase_range x n : 0 <= x < Z.of_nat n -> bitcase x n.
Proof. intros H. apply in_map_iff. exists (Z.to_nat x). split; [lia|]. apply in_seq. lia. Qed.

Lemma byte_small t v x (m : bool) : typeKnown t = true -> typeMulti t = true -> bitcase v 2 -> bitcase x 2 ->
  let tag2 := Z.lor (Z.lor (tag0 t) (Z.shiftl (Z.land v 1) 2)) x in let tag := (if m then Z.lor tag2 2 else tag2) mod 256 in
  tag <> 0 /\ Z.shiftr tag 4 = head4 t /\ Z.land tag 8 = 0 /\ negb (Z.land tag 2 =? 0) = m /\ Z.land tag 1 = x /\ Z.land (Z.shiftr tag 2) 3 = v.
Proof.
  intros K M V X. apply known_cases in K. unfold bitcase in *. cbn in V, X, K. cases_in K; try discriminate M; cases_in V; cases_in X; destruct m; vm_compute; repeat split; discriminate.
Qed.
Lemma byte_large t x (m : bool) : typeKnown t = true -> typeMulti t = true -> bitcase x 4 ->
  let tag2 := Z.lor (Z.lor (tag0 t) 8) x in let tag := (if m then Z.lor tag2 4 else tag2) mod 256 in
  tag <> 0 /\ Z.shiftr tag 4 = head4 t /\ Z.land tag 8 = 8 /\ negb (Z.land tag 4 =? 0) = m /\ Z.land tag 3 = x.
Proof.
  intros K M X. apply known_cases in K. unfold bitcase in *. cbn in X, K. cases_in K; try discriminate M; cases_in X; destruct m; vm_compute; repeat split; discriminate.
Qed.
Lemma byte_single t v x (m : bool) : typeKnown t = true -> typeSingle t = true -> bitcase v 2 -> bitcase x 4 ->
  let tag2 := Z.lor (Z.lor (tag0 t) (Z.shiftl (Z.land v 1) 3)) x in let tag := (if m then Z.lor tag2 4 else tag2) mod 256 in
  tag <> 0 /\ Z.shiftr tag 4 = head4 t /\ negb (Z.land tag 4 =? 0) = m /\ Z.land tag 3 = x /\ Z.land (Z.shiftr tag 3) 1 = v.
Proof.
  intros K M V X. apply known_cases in K. unfold bitcase in *. cbn in V, X, K. cases_in K; try discriminate M; cases_in V; cases_in X; destruct m; vm_compute; repeat split; discriminate.
Qed.
Lemma byte_cont t x (m : bool) : typeKnown t = true -> typeMulti t = false -> typeSingle t = false -> bitcase x 8 ->
  let tag2 := Z.lor (tag0 t) x in let tag := (if m then Z.lor tag2 8 else tag2) mod 256 in
  tag <> 0 /\ Z.shiftr tag 4 = head4 t /\ negb (Z.land tag 8 =? 0) = m /\ Z.land tag 7 = x.
Proof.
  intros K M S X. apply known_cases in K. unfold bitcase in *. cbn in X, K. cases_in K; try discriminate M; try discriminate S; cases_in X; destruct m; vm_compute; repeat split; discriminate.
Qed.

(** Value ranges that fit the type. *)
Definition valueFits (t v : Z) : Prop := if typeMulti t then 0 <= v < two64 else if typeSingle t then v = 0 \/ v = 1 else v = 0.

(** Reading the optional high order part of the id. *)
Lemma idHigh_read d (rest : list Z) : 0 <= d < two32 -> exists b, (if 0 <? d then toVarInt d else Ok []) = Ok b /\
  forall (r : list Z) (A : Type) (f : Z -> list Z -> res A) (g : list Z -> res A),
   (if 0 <? d then let* (x, y) := fromVarInt (b ++ r) in f x y else g (b ++ r)) = (if 0 <? d then f d r else g r).
Proof.
  intros H. destruct (Z.ltb_spec 0 d).
  - destruct (roundtrip d) as (t & E & _ & _ & _ & R); [unfold isU64, two32, two64 in *; lia|]. exists t. split; [exact E|]. intros r A f g. now rewrite R.
  - exists []. split; [reflexivity|]. reflexivity.
Qed.

Lemma tag_read t delta value : typeKnown t = true -> valueFits t value -> 0 <= delta < two32 -> exists tb, tagBytes t delta value = Ok tb /\ (1 <= length tb)%nat /\
  forall r rest, prBuf r = tb ++ rest -> pckReadTagNext r =
    let id' := (delta + rLast r + 1) mod two32 in
    let* (size, b3) := if typeSize t && ((0 <? value) || negb (typeSingle t)) then fromVarInt rest else Ok (0, rest) in
    Ok (mkPRead b3 id' t value size (prTop r) (prStack r)).
Proof.
  intros K F D.
  assert (T : exists a, (if 15 <=? t then toVarInt (t - 15) else Ok []) = Ok a /\
     forall r, (if head4 t =? 15 then let* (x, b) := fromVarInt (a ++ r) in Ok ((x + 15) mod two32, b) else Ok (head4 t, a ++ r)) = Ok (t, r)).
  { apply known_cases in K. cbn in K. cases_in K; (eexists; split; [vm_compute; reflexivity|]); intros r; reflexivity. }
  destruct T as (a & Ea & Ra).
  assert (DV : forall k, 0 < k < 32 -> 0 <= delta / 2 ^ k < two32).
  { intros k Hk. pose proof (Z.pow_pos_nonneg 2 k ltac:(lia) ltac:(lia)). split; [apply Z.div_pos; lia|]. apply Z.le_lt_trans with delta; [|lia]. apply Z.div_le_upper_bound; [lia|]. nia. }
  unfold valueFits in F. revert F. unfold tagBytes. fold (tag0 t). rewrite Ea. cbn [bind]. destruct (typeMulti t) eqn:M; [intros F; destruct (Z.ltb_spec value 2) as [V|V]|destruct (typeSingle t) eqn:S; intros F].
  - (* one bit in the tag *)
    cbn [bind]. rewrite (land_mod delta 1 ltac:(lia) : Z.land delta 1 = _). rewrite (Z.shiftr_div_pow2 delta 1) by lia.
    destruct (idHigh_read (delta / 2 ^ 1) [] (DV 1 ltac:(lia))) as (b & Eb & Rb). rewrite Eb. cbn [bind].
    assert (Vh : Z.shiftr value 1 = 0) by (rewrite Z.shiftr_div_pow2 by lia; apply Z.div_small; lia). rewrite Vh. change (0 <? 0) with false. cbn [bind].
    destruct (byte_small t value (delta mod 2 ^ 1) (0 <? delta / 2 ^ 1) K M (bitcase_range value 2 ltac:(lia)) (bitcase_range (delta mod 2 ^ 1) 2 (Z.mod_pos_bound delta (2 ^ 1) eq_refl))) as (B1 & B2 & B3 & B4 & B5 & B6).
    eexists. split; [reflexivity|]. split; [cbn; lia|]. intros r rest Hr. unfold pckReadTagNext. rewrite Hr. cbn [app]. apply Z.eqb_neq in B1. rewrite B1, B2.
    rewrite <- !app_assoc, Ra. cbn [bind]. rewrite K, M, B3. cbn [negb Z.eqb]. rewrite B4. cbn [app].
    rewrite (Rb rest _ (fun x b1 => Ok (Z.lor (Z.land _ 1) (uintShl x 1), b1)) (fun b1 => Ok (Z.land _ 1, b1))). rewrite B5, B6.
    assert (J : (if 0 <? delta / 2 ^ 1 then Ok (Z.lor (delta mod 2 ^ 1) (uintShl (delta / 2 ^ 1) 1), rest) else Ok (delta mod 2 ^ 1, rest)) = Ok (delta, rest)).
    { destruct (Z.ltb_spec 0 (delta / 2 ^ 1)); [now rewrite shl_join by lia|]. do 2 f_equal. lia. }
    rewrite J. cbn [bind]. reflexivity.
  - (* value after the tag *)
    cbn [bind]. rewrite (land_mod delta 2 ltac:(lia) : Z.land delta 3 = _). rewrite (Z.shiftr_div_pow2 delta 2) by lia.
    destruct (idHigh_read (delta / 2 ^ 2) [] (DV 2 ltac:(lia))) as (b & Eb & Rb). rewrite Eb. cbn [bind].
    assert (Vp : 0 <? value = true) by (apply Z.ltb_lt; lia). rewrite Vp. destruct (roundtrip value F) as (c & Ec & _ & _ & _ & Rc). rewrite Ec. cbn [bind].
    destruct (byte_large t (delta mod 2 ^ 2) (0 <? delta / 2 ^ 2) K M (bitcase_range (delta mod 2 ^ 2) 4 (Z.mod_pos_bound delta (2 ^ 2) eq_refl))) as (B1 & B2 & B3 & B4 & B5).
    eexists. split; [reflexivity|]. split; [cbn; lia|]. intros r rest Hr. unfold pckReadTagNext. rewrite Hr. cbn [app]. apply Z.eqb_neq in B1. rewrite B1, B2.
    rewrite <- !app_assoc, Ra. cbn [bind]. rewrite K, M, B3. cbn [negb Z.eqb Pos.eqb]. rewrite B4.
    rewrite (Rb (c ++ rest) _ (fun x b1 => Ok (Z.lor (Z.land _ 3) (uintShl x 2), b1)) (fun b1 => Ok (Z.land _ 3, b1))). rewrite B5.
    assert (J : (if 0 <? delta / 2 ^ 2 then Ok (Z.lor (delta mod 2 ^ 2) (uintShl (delta / 2 ^ 2) 2), c ++ rest) else Ok (delta mod 2 ^ 2, c ++ rest)) = Ok (delta, c ++ rest)).
    { destruct (Z.ltb_spec 0 (delta / 2 ^ 2)); [now rewrite shl_join by lia|]. do 2 f_equal. lia. }
    rewrite J. cbn [bind]. rewrite Rc. cbn [bind]. rewrite Vp. reflexivity.
  - (* one bit value *)
    cbn [bind]. rewrite (land_mod delta 2 ltac:(lia) : Z.land delta 3 = _). rewrite (Z.shiftr_div_pow2 delta 2) by lia.
    destruct (idHigh_read (delta / 2 ^ 2) [] (DV 2 ltac:(lia))) as (b & Eb & Rb). rewrite Eb. cbn [bind].
    assert (Vh : Z.shiftr value 1 = 0) by (rewrite Z.shiftr_div_pow2 by lia; apply Z.div_small; lia). rewrite Vh. change (0 <? 0) with false. cbn [bind].
    destruct (byte_single t value (delta mod 2 ^ 2) (0 <? delta / 2 ^ 2) K S (bitcase_range value 2 ltac:(lia)) (bitcase_range (delta mod 2 ^ 2) 4 (Z.mod_pos_bound delta (2 ^ 2) eq_refl))) as (B1 & B2 & B4 & B5 & B6).
    eexists. split; [reflexivity|]. split; [cbn; lia|]. intros r rest Hr. unfold pckReadTagNext. rewrite Hr. cbn [app]. apply Z.eqb_neq in B1. rewrite B1, B2.
    rewrite <- !app_assoc, Ra. cbn [bind]. rewrite K, M, S, B4. cbn [negb app].
    rewrite (Rb rest _ (fun x b1 => Ok (Z.lor (Z.land _ 3) (uintShl x 2), b1)) (fun b1 => Ok (Z.land _ 3, b1))). rewrite B5, B6.
    assert (J : (if 0 <? delta / 2 ^ 2 then Ok (Z.lor (delta mod 2 ^ 2) (uintShl (delta / 2 ^ 2) 2), rest) else Ok (delta mod 2 ^ 2, rest)) = Ok (delta, rest)).
    { destruct (Z.ltb_spec 0 (delta / 2 ^ 2)); [now rewrite shl_join by lia|]. do 2 f_equal. lia. }
    rewrite J. cbn [bind]. reflexivity.
  - (* no value *)
    subst value. cbn [Z.eqb negb bind]. rewrite (land_mod delta 3 ltac:(lia) : Z.land delta 7 = _). rewrite (Z.shiftr_div_pow2 delta 3) by lia.
    destruct (idHigh_read (delta / 2 ^ 3) [] (DV 3 ltac:(lia))) as (b & Eb & Rb). rewrite Eb. cbn [bind]. change (0 <? 0) with false. cbn [bind].
    destruct (byte_cont t (delta mod 2 ^ 3) (0 <? delta / 2 ^ 3) K M S (bitcase_range (delta mod 2 ^ 3) 8 (Z.mod_pos_bound delta (2 ^ 3) eq_refl))) as (B1 & B2 & B4 & B5).
    eexists. split; [reflexivity|]. split; [cbn; lia|]. intros r rest Hr. unfold pckReadTagNext. rewrite Hr. cbn [app]. apply Z.eqb_neq in B1. rewrite B1, B2.
    rewrite <- !app_assoc, Ra. cbn [bind]. rewrite K, M, S, B4. cbn [negb app].
    rewrite (Rb rest _ (fun x b1 => Ok (Z.lor (Z.land _ 7) (uintShl x 3), b1)) (fun b1 => Ok (Z.land _ 7, b1))). rewrite B5.
    assert (J : (if 0 <? delta / 2 ^ 3 then Ok (Z.lor (delta mod 2 ^ 3) (uintShl (delta / 2 ^ 3) 3), rest) else Ok (delta mod 2 ^ 3, rest)) = Ok (delta, rest)).
    { destruct (Z.ltb_spec 0 (delta / 2 ^ 3)); [now rewrite shl_join by lia|]. do 2 f_equal. lia. }
    rewrite J. cbn [bind]. reflexivity.
Qed.
