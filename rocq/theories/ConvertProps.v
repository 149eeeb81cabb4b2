(** Properties C05-C07: varint-128 and zig-zag. *)
From Verif Require Import Base ConvertModel ConvertSpec ConvertProof.
Open Scope Z_scope.

(** C05.  Every 64-bit value can be written, in at most ten bytes; the text denotes the value; reading it back from any
    stream that starts with it returns the value and leaves exactly the rest of the stream. *)
Theorem C05_varint_roundtrip : forall v, 0 <= v < 2 ^ 64 ->
  exists t, toVarInt v = Ok t /\ (length t <= 10)%nat /\ varIntText t /\ base128 t = v /\
            forall rest, fromVarInt (t ++ rest) = Ok (v, rest).
Proof. exact roundtrip. Qed.
Print Assumptions C05_varint_roundtrip.
Example C05_nontrivial : toVarInt 300 = Ok [172; 2] /\ (exists t, toVarInt (2 ^ 64 - 1) = Ok t /\ length t = 10%nat).
Proof. split; [|eexists; split]; vm_compute; reflexivity. Qed.

(** C06, exact behaviour of the decoder: it accepts exactly the terminated texts of at most ten bytes, and returns their value
    modulo 2^64.  In particular truncated and longer texts are format errors. *)
Theorem C06_varint_decoder_exact : forall buf v rest, bytes buf ->
  (fromVarInt buf = Ok (v, rest) <->
   exists t, buf = t ++ rest /\ varIntText t /\ (length t <= 10)%nat /\ v = base128 t mod 2 ^ 64).
Proof. exact from_spec. Qed.
Print Assumptions C06_varint_decoder_exact.

(** C06 as stated is false: a ten byte text whose value needs more than 64 bits is accepted and truncated. *)
Theorem C06_varint_overflow_rejected_refuted : exists t v, varIntText t /\ 2 ^ 64 <= base128 t /\ fromVarInt t = Ok (v, []) /\ v = 0.
Proof.
  exists [128;128;128;128;128;128;128;128;128;2], 0. split; [|split; [vm_compute; discriminate|split; vm_compute; reflexivity]].
  exists [128;128;128;128;128;128;128;128;128], 2. split; [reflexivity|]. split; [repeat constructor; lia|lia].
Qed.
Print Assumptions C06_varint_overflow_rejected_refuted.

(** C06, part that holds: texts of at most nine bytes are never truncated, and an unterminated text is never accepted. *)
Theorem C06_varint_overflow_rejected_partial : forall t v rest, varIntText t -> bytes rest -> (length t <= 9)%nat ->
  fromVarInt (t ++ rest) = Ok (v, rest) -> v = base128 t.
Proof.
  intros t v rest Ht Hr Hlen E. apply from_spec in E; [|apply Forall_app; split; [apply varIntText_bytes, Ht|exact Hr]].
  destruct E as (t' & E & _ & _ & ->). apply app_inv_tail in E. subst t'.
  apply Z.mod_small. split; [apply base128_nonneg|].
  eapply Z.lt_le_trans; [apply base128_bound|]. apply (Z.pow_le_mono_r 2 _ 64); lia.
Qed.
Print Assumptions C06_varint_overflow_rejected_partial.
Theorem C06_varint_unterminated_rejected : forall buf, Forall (fun b => 128 <= b < 256) buf -> fromVarInt buf = Err EFormat.
Proof. intros buf. exact (read_unterminated buf varIntMax 0 0). Qed.
Print Assumptions C06_varint_unterminated_rejected.
Example C06_nontrivial : varIntText [172; 2] /\ fromVarInt ([172; 2] ++ [5]) = Ok (300, [5]).
Proof. split; [exists [172], 2; repeat split; repeat constructor; lia|vm_compute; reflexivity]. Qed.

(** C07.  Zig-zag maps signed 64/32-bit integers one to one onto unsigned ones as 0,-1,1,-2,2,... and the reverse mapping is
    its inverse in both directions. *)
Theorem C07_zigzag64 : 
  (forall v, - 2 ^ 63 <= v < 2 ^ 63 -> zigZag64 v = zz v /\ 0 <= zigZag64 v < 2 ^ 64 /\ unZigZag64 (zigZag64 v) = v) /\
  (forall u, 0 <= u < 2 ^ 64 -> unZigZag64 u = unzz u /\ - 2 ^ 63 <= unZigZag64 u < 2 ^ 63 /\ zigZag64 (unZigZag64 u) = u).
Proof.
  split.
  - intros v H. pose proof (zz_range (2^63) v H) as R. rewrite zigZag64_spec by exact H. split; [reflexivity|]. split; [exact R|].
    rewrite unZigZag64_spec by exact R. apply unzz_zz.
  - intros u H. pose proof (unzz_range (2^63) u H) as R. rewrite unZigZag64_spec by exact H. split; [reflexivity|]. split; [exact R|].
    rewrite zigZag64_spec by exact R. apply zz_unzz, H.
Qed.
Print Assumptions C07_zigzag64.
Theorem C07_zigzag32 : 
  (forall v, - 2 ^ 31 <= v < 2 ^ 31 -> zigZag32 v = zz v /\ 0 <= zigZag32 v < 2 ^ 32 /\ unZigZag32 (zigZag32 v) = v) /\
  (forall u, 0 <= u < 2 ^ 32 -> unZigZag32 u = unzz u /\ - 2 ^ 31 <= unZigZag32 u < 2 ^ 31 /\ zigZag32 (unZigZag32 u) = u).
Proof.
  split.
  - intros v H. pose proof (zz_range (2^31) v H) as R. rewrite zigZag32_spec by exact H. split; [reflexivity|]. split; [exact R|].
    rewrite unZigZag32_spec by exact R. apply unzz_zz.
  - intros u H. pose proof (unzz_range (2^31) u H) as R. rewrite unZigZag32_spec by exact H. split; [reflexivity|]. split; [exact R|].
    rewrite zigZag32_spec by exact R. apply zz_unzz, H.
Qed.
Print Assumptions C07_zigzag32.
Example C07_nontrivial : zigZag64 (-3) = 5 /\ unZigZag64 (2^64-1) = - 2^63 /\ zigZag32 (-3) = 5.
Proof. vm_compute. auto. Qed.
