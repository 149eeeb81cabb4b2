(** Property C46: integers as text. *)
From Verif Require Import Base Str ConvertModel NumModel NumSpec NumProof.
Open Scope Z_scope.

(** C46.  Each conversion accepts exactly the texts of numbers in its range (no leading space, nothing after the digits, no minus sign for
    the unsigned ones) and returns that number. *)
Theorem C46_uint64_exact : forall base, 2 <= base <= 16 -> forall s v,
  cvtZToUInt64 base s = Ok v <-> unsignedText base s v /\ v < 2 ^ 64.
Proof. exact cvtZToUInt64_spec. Qed.
Print Assumptions C46_uint64_exact.
Theorem C46_uint_exact : forall base, 2 <= base <= 16 -> forall s v,
  cvtZToUInt base s = Ok v <-> unsignedText base s v /\ v < 2 ^ 32.
Proof. exact cvtZToUInt_spec. Qed.
Print Assumptions C46_uint_exact.
Theorem C46_int64_exact : forall base, 2 <= base <= 16 -> forall s v,
  cvtZToInt64 base s = Ok v <-> signedText base s v /\ - 2 ^ 63 <= v < 2 ^ 63.
Proof. exact cvtZToInt64_spec. Qed.
Print Assumptions C46_int64_exact.
Theorem C46_int_exact : forall base, 2 <= base <= 16 -> forall s v,
  cvtZToInt base s = Ok v <-> signedText base s v /\ - 2 ^ 31 <= v < 2 ^ 31.
Proof. exact cvtZToInt_spec. Qed.
Print Assumptions C46_int_exact.

(** C46.  Written numbers read back. *)
Theorem C46_uint64_roundtrip : forall v, 0 <= v < 2 ^ 64 -> cvtZToUInt64 10 (cvtUIntToZ v) = Ok v.
Proof. intros v H. apply cvtZToUInt64_spec; [lia|]. split; [|exact (proj2 H)]. apply digits_unsigned. apply numText_is; [lia|exact H]. Qed.
Print Assumptions C46_uint64_roundtrip.
Theorem C46_int64_roundtrip : forall v, - 2 ^ 63 <= v < 2 ^ 63 -> cvtZToInt64 10 (cvtIntToZ v) = Ok v.
Proof. intros v H. apply cvtZToInt64_spec; [lia|]. split; [|exact H]. now apply intText_signed. Qed.
Print Assumptions C46_int64_roundtrip.
Theorem C46_mode_roundtrip : forall v, 0 <= v < 2 ^ 32 -> cvtZToMode (cvtModeToZ v) = Ok v.
Proof.
  intros v H. apply cvtZToUInt_spec; [lia|]. split; [|exact (proj2 H)]. apply digits_unsigned. apply digitsIs_pad; [lia|]. apply numText_is; [lia|].
  unfold two64. change (2 ^ 32) with 4294967296 in H. lia.
Qed.
Print Assumptions C46_mode_roundtrip.
Example C46_nontrivial : unsignedText 16 [43;48;120;49;102] 31 /\ cvtZToUInt 16 [43;48;120;49;102] = Ok 31 /\
  cvtZToUInt 10 [52;50;57;52;57;54;55;50;57;54] = Err EFormat /\ cvtZToInt 10 [45;50;49;52;55;52;56;51;54;52;56] = Ok (-2147483648) /\
  cvtZToInt 10 [32;49] = Err EFormat /\ cvtZToUInt64 10 [45;49] = Err EFormat.
Proof.
  split; [|repeat split; vm_compute; reflexivity]. exists [43], [48;120], [49;102]. split; [now right|]. split; [right; split; [reflexivity|now left]|].
  split; [reflexivity|]. change [49;102] with ([49] ++ [102]). change 31 with (1 * 16 + 15). constructor; [|change 102 with (87 + 15); constructor; lia|lia].
  change 49 with (48 + 1). constructor; [constructor; lia|lia].
Qed.
