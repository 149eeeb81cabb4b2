(** Properties C01-C04: text encodings. *)
From Verif Require Import Base EncodeModel EncodeSpec EncodeProof.
Open Scope Z_scope.

(** C01.  Decoding the base64 text of any byte string returns it, whatever the signedness of C's char. *)
Theorem C01_base64_roundtrip : forall (signedChar : bool) (src : list Z),
  bytes src -> decodeBase64 signedChar (encodeBase64 src) = Ok src.
Proof. exact decode_encode. Qed.
Print Assumptions C01_base64_roundtrip.

(** C01.  The text is RFC 4648 base64 (so other tools read it), and has the announced size. *)
Theorem C01_base64_is_rfc4648 : forall src, bytes src ->
  encodeBase64 src = rfcBase64 43 47 true src /\
  Z.of_nat (length (encodeBase64 src)) = encodeSizeBase64 (Z.of_nat (length src)).
Proof. intros src H. exact (conj (encodeBase64_rfc src H) (encodeBase64_size src)). Qed.
Print Assumptions C01_base64_is_rfc4648.

(** C01.  URL variant (no decoder exists in the code): RFC 4648 section 5 without padding, injective, announced size. *)
Theorem C01_base64url_is_rfc4648 : forall src, bytes src ->
  encodeBase64Url src = rfcBase64 45 95 false src /\
  Z.of_nat (length (encodeBase64Url src)) = encodeSizeBase64Url (Z.of_nat (length src)).
Proof. intros src H. exact (conj (encodeBase64Url_rfc src H) (encodeBase64Url_size src)). Qed.
Print Assumptions C01_base64url_is_rfc4648.

Theorem C01_base64url_injective : forall s t, bytes s -> bytes t -> encodeBase64Url s = encodeBase64Url t -> s = t.
Proof. exact encodeUrl_inj. Qed.
Print Assumptions C01_base64url_injective.

Example C01_nontrivial : bytes [0; 255; 128; 7; 61] /\
  encodeBase64 [0; 255; 128; 7; 61] = [65;80;43;65;66;122;48;61] (* "AP+ABz0=" *) /\
  encodeBase64Url [0; 255; 128; 7; 61] = [65;80;45;65;66;122;48].
Proof. split; [repeat constructor; unfold isByte; lia|split; vm_compute; reflexivity]. Qed.

(** C02.  On input for which the table reads are defined, the decoder accepts exactly the well formed texts, produces bytes,
    and writes exactly the number of bytes announced by the size function. *)
Theorem C02_base64_accepts_exactly : forall sc s, Forall (okChar sc) s ->
  ((exists out, decodeBase64 sc s = Ok out) <-> wfB64 s).
Proof. exact decode_accepts. Qed.
Print Assumptions C02_base64_accepts_exactly.

Theorem C02_base64_size_exact : forall sc s out, Forall (okChar sc) s ->
  decodeBase64 sc s = Ok out -> decodeSizeBase64 sc s = Ok (Z.of_nat (length out)).
Proof. exact decode_size. Qed.
Print Assumptions C02_base64_size_exact.

Example C02_accepts : exists out, decodeBase64 true [65;80;43;65;66;122;48;61] = Ok out /\ length out = 5%nat.
Proof. eexists. split; vm_compute; reflexivity. Qed.
Example C02_rejects : decodeBase64 true [65;61;43;65] = Err EFormat /\ decodeBase64 true [65;66;61;65] = Err EFormat
  /\ decodeBase64 true [65;66;43] = Err EFormat.
Proof. vm_compute. auto. Qed.

(** Different accepted texts may denote the same bytes: unused trailing bits are not checked. *)
Theorem C02_decoder_injective_refuted : exists s t out, s <> t /\ decodeBase64 true s = Ok out /\ decodeBase64 true t = Ok out.
Proof. exists [65;65;61;61], [65;66;61;61], [0]. split; [discriminate|]. split; vm_compute; reflexivity. Qed.
Print Assumptions C02_decoder_injective_refuted.

(** C03.  Hex. *)
Theorem C03_hex_roundtrip : forall sc src, bytes src -> decodeHex sc (encodeHex src) = Ok src.
Proof. exact decodeHex_encode. Qed.
Print Assumptions C03_hex_roundtrip.

Theorem C03_hex_decoder_exact : forall sc s, Forall (okChar sc) s -> forall out,
  decodeHex sc s = Ok out <-> (wfHex s /\ out = hexPairs s).
Proof. exact decodeHex_spec. Qed.
Print Assumptions C03_hex_decoder_exact.

Theorem C03_hex_sizes : (forall src, Z.of_nat (length (encodeHex src)) = encodeSizeHex (Z.of_nat (length src))) /\
  (forall sc s out, Forall (okChar sc) s -> decodeHex sc s = Ok out -> decodeSizeHex sc s = Ok (Z.of_nat (length out))).
Proof. exact (conj encodeHex_length decodeHex_size). Qed.
Print Assumptions C03_hex_sizes.

Example C03_nontrivial : decodeHex true [65;97;48;57] = Ok [170; 9] /\ wfHex [65;97;48;57].
Proof.
  split; [vm_compute; reflexivity|]. split; [exists 2%nat; reflexivity|].
  repeat (constructor; [unfold isHexChar; lia|]). constructor.
Qed.

(** C04.  Memory safety of validation.  The claim is false where char is signed (x86): byte 0x80 indexes the table at -128. *)
Theorem C04_validate_memory_safe_refuted : exists s, bytes s /\ validateBase64 true s = UB.
Proof. exists [128;65;65;65]. split; [repeat constructor; unfold isByte; lia|vm_compute; reflexivity]. Qed.
Print Assumptions C04_validate_memory_safe_refuted.
Theorem C04_validate_hex_memory_safe_refuted : exists s, bytes s /\ validateHex true s = UB.
Proof. exists [128;65]. split; [repeat constructor; unfold isByte; lia|vm_compute; reflexivity]. Qed.
Print Assumptions C04_validate_hex_memory_safe_refuted.

(** It holds for 7-bit input, and for all input where char is unsigned. *)
Theorem C04_validate_memory_safe_partial : forall (sc : bool) (s : list Z),
  Forall (fun c => if sc then 0 <= c < 128 else 0 <= c < 256) s ->
  validateBase64 sc s <> UB /\ validateHex sc s <> UB.
Proof. intros sc s H. exact (conj (validateBase64_noUB sc s H) (validateHex_noUB sc s H)). Qed.
Print Assumptions C04_validate_memory_safe_partial.
Example C04_nontrivial : Forall (fun c => if true then 0 <= c < 128 else 0 <= c < 256) [127; 61; 0].
Proof. repeat (constructor; [lia|]). constructor. Qed.
