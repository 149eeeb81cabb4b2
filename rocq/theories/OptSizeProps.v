(** C72: sizes and times are read as what they say *)
From Coq Require Import Lia String.
From Verif Require Import Base Str RegNameModel ConvertModel NumModel NumSpec NumProof OptSizeModel OptSizeSpec OptSizeProof OptSizeProof2.
Open Scope Z_scope.
Open Scope list_scope.

(** A text is read as a size exactly if it is digits and a unit, and the bytes are less than 2^63; the value is the product *)
Theorem C72_size s v : parseSize s = Ok v <-> sizeText s v /\ v < 2 ^ 63.
Proof. change (2 ^ 63) with two63. apply parseSize_spec. Qed.
Print Assumptions C72_size.
(** All other texts are a format error: no assertion, no read outside of the text *)
Theorem C72_size_safe s : (exists v, parseSize s = Ok v) \/ parseSize s = Err EFormat.
Proof. apply parseSize_kind. Qed.
Print Assumptions C72_size_safe.

(** A time is read as the product of its number and its unit, a format error if that is 2^63 or more.  What is missing: numbers of more than 64 characters and products below -2^63, see
    C72_time_buffer_refuted and C72_time_overflow_refuted. *)
Theorem C72_time_partial s num n m : timeText s num n m -> (List.length num <= 64)%nat -> - 2 ^ 63 <= n * m ->
  parseTime s = if n * m <? 2 ^ 63 then Ok (n * m) else Err EFormat.
Proof.
  intros T L R. rewrite (time_text s num n m T). unfold timeValue, int64Min, int64Max. change (- 2 ^ 63) with (-9223372036854775808) in R. change (2 ^ 63) with 9223372036854775808.
  assert (P : 1 <= m) by (destruct T as (u & us & _ & _ & _ & U); apply timeUnit_pos in U; lia).
  replace (64 <? List.length num)%nat with false by (symmetry; apply Nat.ltb_ge; exact L). replace (n * m <? -9223372036854775808) with false by (symmetry; apply Z.ltb_ge; lia). cbn [andb].
  replace (n <? -9223372036854775808) with false by (symmetry; apply Z.ltb_ge; nia). rewrite Bool.orb_false_r. destruct (Z.ltb_spec 9223372036854775807 (n * m)), (Z.ltb_spec (n * m) 9223372036854775808); try reflexivity; lia.
Qed.
Print Assumptions C72_time_partial.
(** What is not a time is a format error *)
Theorem C72_time_other_partial s : (forall num n m, ~ timeText s num n m) -> (List.length s <= 64)%nat -> parseTime s = Err EFormat.
Proof. intros N L. destruct (time_other s N) as [E|[L' _]]; [exact E|lia]. Qed.
Print Assumptions C72_time_other_partial.
(** So what was read is what the text says *)
Theorem C72_time_sound s v : parseTime s = Ok v -> exists num n m, timeText s num n m /\ v = n * m /\ - 2 ^ 63 <= v < 2 ^ 63.
Proof.
  intros H. destruct (timeUnitOf s) as [q m] eqn:E. destruct (unit_sound s q m E) as (num & us & u & ES & LQ & L & U). pose proof H as H'. rewrite parse_time, E in H'. cbv iota beta in H'.
  assert (F : firstn (List.length s - q) s = num) by (rewrite ES, <- LQ, app_length; replace (List.length num + List.length us - List.length us)%nat with (List.length num + 0)%nat by lia; rewrite firstn_app_2; apply app_nil_r).
  rewrite F in H'. unfold timeOf in H'. destruct num as [|c r] eqn:EN; [discriminate|]. destruct (64 <? _)%nat; [discriminate|]. destruct (cvtZToInt64 10 (c :: r)) as [n| |] eqn:C; cbn [bind] in H'; try discriminate.
  assert (B : 2 <= 10 <= 16) by lia. apply (cvtZToInt64_spec 10 B) in C. destruct C as [C1 _].
  assert (T : timeText s (c :: r) n m) by (exists u, us; repeat split; assumption). exists (c :: r), n, m. split; [exact T|]. rewrite (time_text s _ n m T) in H. unfold timeValue, int64Min, int64Max in H.
  destruct (64 <? _)%nat; [discriminate|]. destruct (_ && _) eqn:Q1; [discriminate|]. destruct (_ || _) eqn:Q2; [discriminate|]. injection H as <-. split; [reflexivity|].
  apply Bool.orb_false_iff in Q2. destruct Q2 as [Q2 Q3]. apply Z.ltb_ge in Q2, Q3. apply Bool.andb_false_iff in Q1. change (2 ^ 63) with 9223372036854775808. destruct Q1 as [Q1|Q1]; [apply Z.ltb_ge in Q1; lia|apply Z.leb_gt in Q1; lia].
Qed.
Print Assumptions C72_time_sound.

(** A number of more than 64 characters, e.g. with leading zeros, is copied past the end of a buffer on the stack *)
Theorem C72_time_buffer_refuted k : (64 < k)%nat -> timeText (repeat 48 k) (repeat 48 k) 0 1000 /\ parseTime (repeat 48 k) = UB.
Proof.
  intros K. assert (D : digitsIs 10 (repeat 48 k) 0).
  { destruct k as [|k]; [lia|]. clear K. induction k as [|k IH]; [exact (ds_one 10 48 0 (NumSpec.dec 0 ltac:(lia)) ltac:(lia))|]. replace (repeat 48 (S (S k))) with (repeat 48 (S k) ++ [48]) by (rewrite <- repeat_cons; reflexivity).
    exact (ds_snoc 10 (repeat 48 (S k)) 0 48 0 IH (NumSpec.dec 0 ltac:(lia)) ltac:(lia)). }
  assert (T : timeText (repeat 48 k) (repeat 48 k) 0 1000).
  { exists [], []. split; [rewrite app_nil_r; reflexivity|]. split; [left; exists [], [], (repeat 48 k); split; [left; reflexivity|]; split; [left; reflexivity|]; split; [reflexivity|exact D]|]. split; [constructor|left; reflexivity]. }
  split; [exact T|]. rewrite (time_text _ _ _ _ T). unfold timeValue. rewrite repeat_length. replace (64 <? k)%nat with true by (symmetry; apply Nat.ltb_lt; exact K). reflexivity.
Qed.
Print Assumptions C72_time_buffer_refuted.
(** A negative number is not checked before it is multiplied *)
Theorem C72_time_overflow_refuted : parseTime (txt "-9223372036854775807w") = UB /\ parseTime (txt "-1w") = Ok (-604800000).
Proof. split; reflexivity. Qed.
Print Assumptions C72_time_overflow_refuted.

(** Upper and lower case, letters with and without b *)
Example C72_nontrivial :
  parseSize (txt "10KiB") = Ok 10240 /\ parseSize (txt "4g") = Ok 4294967296 /\ parseSize (txt "8388608t") = Err EFormat /\ parseSize (txt "8388607t") = Ok 9223370937343148032 /\ parseSize (txt "1kk") = Err EFormat /\ parseSize (txt "7bb") = Ok 7 /\
  sizeText (txt "10KiB") 10240 /\
  parseTime (txt "2w") = Ok 1209600000 /\ parseTime (txt "15ms") = Ok 15 /\ parseTime (txt "15M") = Ok 900000 /\ parseTime (txt "ms") = Err EFormat /\ parseTime (txt "1.5s") = Err EFormat /\
  timeText (txt "15ms") (txt "15") 15 1.
Proof.
  split; [reflexivity|]. split; [reflexivity|]. split; [reflexivity|]. split; [reflexivity|]. split; [reflexivity|]. split; [reflexivity|].
  assert (D10 : digitsIs 10 (txt "10") 10) by (exact (ds_snoc 10 [49] 1 48 0 (ds_one 10 49 1 (NumSpec.dec 1 ltac:(lia)) ltac:(lia)) (NumSpec.dec 0 ltac:(lia)) ltac:(lia))).
  assert (D15 : digitsIs 10 (txt "15") 15) by (exact (ds_snoc 10 [49] 1 53 5 (ds_one 10 49 1 (NumSpec.dec 1 ltac:(lia)) ltac:(lia)) (NumSpec.dec 5 ltac:(lia)) ltac:(lia))).
  split.
  { exists (txt "10"), (txt "kib"), (txt "KiB"), 10, 1024. split; [reflexivity|]. split; [exact D10|]. split; [apply lower_same; [intros c H; vm_compute in H; lia|reflexivity]|]. split; [|reflexivity]. right. right. right. exists 107, 1. split; [cbn; tauto|]. split; [reflexivity|]. right. right. reflexivity. }
  split; [reflexivity|]. split; [reflexivity|]. split; [reflexivity|]. split; [reflexivity|]. split; [reflexivity|].
  exists (txt "ms"), (txt "ms"). split; [reflexivity|]. split; [left; exists [], [], (txt "15"); split; [left; reflexivity|]; split; [left; reflexivity|]; split; [reflexivity|exact D15]|]. split; [apply lower_same; [intros c H; vm_compute in H; lia|reflexivity]|right; left; reflexivity].
Qed.
