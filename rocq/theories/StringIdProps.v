(** Property C08: string ids. *)
From Verif Require Import Base StringIdModel StringIdSpec StringIdProof.
Open Scope Z_scope.

(** C08.  Every representable string (with any legal sequence number) gets a non-zero 64-bit id from which both the string and
    the sequence number are recovered. *)
Theorem C08_stringid_roundtrip : forall s seq, bytes s -> fits5 s \/ fits6 s -> seqOk s seq ->
  exists id, strIdFrom s seq = Ok id /\ 0 < id < 2 ^ 64 /\ strIdTo id = Ok s /\
    strIdSeq id = match seq with Some n => Ok n | None => Err EAssert end.
Proof. exact roundtrip. Qed.
Print Assumptions C08_stringid_roundtrip.

(** C08.  Strings that are not representable are format errors, and whatever is accepted is representable. *)
Theorem C08_stringid_rejects_exactly :
  (forall s seq, bytes s -> s <> [] -> ~ fits5 s -> ~ fits6 s -> strIdFrom s seq = Err EFormat) /\
  (forall s seq id, bytes s -> (match seq with Some n => 0 <= n | None => True end) ->
     strIdFrom s seq = Ok id -> (fits5 s \/ fits6 s) /\ seqOk s seq).
Proof. exact (conj reject from_ok_inv). Qed.
Print Assumptions C08_stringid_rejects_exactly.

(** C08.  Different (string, sequence) pairs never share an id. *)
Theorem C08_stringid_injective : forall s1 q1 s2 q2 id, bytes s1 -> bytes s2 ->
  (match q1 with Some n => 0 <= n | None => True end) -> (match q2 with Some n => 0 <= n | None => True end) ->
  strIdFrom s1 q1 = Ok id -> strIdFrom s2 q2 = Ok id -> s1 = s2 /\ q1 = q2.
Proof. exact injective. Qed.
Print Assumptions C08_stringid_injective.

(** "mytest0123" has the id given in the documentation comment (stringId.h:12); "abc" with a low and with a high sequence. *)
Example C08_nontrivial :
  strIdFrom [109;121;116;101;115;116;48;49;50;51] None = Ok 0x7de75c51315464d1 /\
  strIdFrom [97;98;99] (Some 0) = Ok (2 + 16 * (1 + 32 * 2 + 1024 * 3)) /\
  strIdFrom [97;98;99] (Some 37) = Ok (14 + 16 * 31 + 512 * (1 + 32 * 2 + 1024 * 3)) /\
  bytes [97;98;99] /\ fits5 [97;98;99] /\ seqOk [97;98;99] (Some 37).
Proof.
  split; [vm_compute; reflexivity|]. split; [vm_compute; reflexivity|]. split; [vm_compute; reflexivity|].
  assert (F : Forall char5 [97;98;99]) by (repeat (constructor; [unfold char5; lia|]); constructor).
  split; [repeat (constructor; [unfold isByte; lia|]); constructor|]. split; [split; [cbn; lia|exact F]|].
  cbn [seqOk]. right. split; [lia|]. left. split; [exact F|cbn; lia].
Qed.
