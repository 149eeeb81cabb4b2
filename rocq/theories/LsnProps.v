(** Properties C11, C12, C13: LSN text and WAL segment names. *)
From Verif Require Import Base Str NumModel NumSpec LsnModel LsnSpec LsnProof.
Open Scope Z_scope.

(** C11.  The text form of every LSN parses back to it. *)
Theorem C11_roundtrip : forall lsn, 0 <= lsn < 2 ^ 64 -> lsnFromStr (lsnToStr lsn) = Ok lsn.
Proof. exact lsn_roundtrip. Qed.
Print Assumptions C11_roundtrip.

(** C11.  The parser accepts exactly two hex numbers of at most 64 bits around one slash. *)
Theorem C11_accepts : forall s v, lsnFromStr s = Ok v <->
  exists hi lo h l, s = hi ++ 47 :: lo /\ unsignedText 16 hi h /\ h < 2 ^ 64 /\ unsignedText 16 lo l /\ l < 2 ^ 64 /\
    v = (h * 2 ^ 32 + l) mod 2 ^ 64.
Proof. exact lsnFromStr_spec. Qed.
Print Assumptions C11_accepts.

(** C11.  The two parts are not limited to 32 bits: "1/100000000" and "2/0" give the same LSN and "100000000/0" is zero. *)
Theorem C11_wide_parts_refuted : exists s t v, s <> t /\ lsnFromStr s = Ok v /\ lsnFromStr t = Ok v /\
  lsnFromStr [49;48;48;48;48;48;48;48;48;47;48] = Ok 0.
Proof. exists [49;47;49;48;48;48;48;48;48;48;48], [50;47;48], 8589934592. split; [discriminate|]. split; [|split]; vm_compute; reflexivity. Qed.
Print Assumptions C11_wide_parts_refuted.
Example C11_nontrivial : lsnFromStr [49;54;47;66;51;55;52;68;56;52;56] = Ok 97500059720 /\ lsnToStr 97500059720 = [49;54;47;98;51;55;52;100;56;52;56].
Proof. split; vm_compute; reflexivity. Qed.

(** C12.  The list holds exactly the segments that hold a byte of the range, strictly ascending (so without duplicates); the loop ends after
    one step per segment. *)
Theorem C12_range_exact : forall tl size start stop fuel, goodTimeline tl -> goodSize size -> 0 <= start <= stop -> stop < 2 ^ 64 ->
  (Z.to_nat (stop / size - start / size) <= fuel)%nat ->
  exists l, lsnRangeToWalSegmentList fuel tl start stop size = Ok l /\ ssorted l /\
    forall w, In w l <-> exists b, start <= b <= stop /\ segmentIs tl size b w.
Proof. exact range_exact. Qed.
Print Assumptions C12_range_exact.
(** C12.  The name of the segment of one LSN. *)
Theorem C12_segment : forall tl size b, goodTimeline tl -> goodSize size -> 0 <= b < 2 ^ 64 -> segmentIs tl size b (lsnToWalSegment tl b size).
Proof. exact segment_exact. Qed.
Print Assumptions C12_segment.
Theorem C12_segment_unique : forall tl size b w w', segmentIs tl size b w -> segmentIs tl size b w' -> w = w'.
Proof. exact segmentIs_unique. Qed.
Print Assumptions C12_segment_unique.
(** 16MB segments, a range across a 4GB boundary: 1/FEFFFFFF to 2/0. *)
Example C12_nontrivial : goodTimeline 7 /\ goodSize 16777216 /\
  exists a b c, lsnRangeToWalSegmentList 2 7 (4294967296 + 4278190079) 8589934592 16777216 = Ok [a; b; c] /\
    b = [48;48;48;48;48;48;48;55;48;48;48;48;48;48;48;49;48;48;48;48;48;48;70;70] /\
    c = [48;48;48;48;48;48;48;55;48;48;48;48;48;48;48;50;48;48;48;48;48;48;48;48].
Proof.
  split; [unfold goodTimeline; lia|]. split; [split; [lia|exists 256; reflexivity]|]. eexists _, _, _. split; [vm_compute; reflexivity|]. split; reflexivity.
Qed.

(** C13.  The next segment is the one that holds the byte one segment size later; after the last segment of the 64-bit space comes the
    first. *)
Theorem C13_next : forall tl size b w, goodTimeline tl -> goodSize size -> 0 <= b -> b + size < 2 ^ 64 -> segmentIs tl size b w ->
  exists w', walSegmentNext w size = Ok w' /\ segmentIs tl size (b + size) w'.
Proof. exact next_exact. Qed.
Print Assumptions C13_next.
Theorem C13_next_wrap : forall tl size w w0, goodTimeline tl -> goodSize size -> segmentIs tl size (2 ^ 64 - 1) w -> segmentIs tl size 0 w0 ->
  walSegmentNext w size = Ok w0.
Proof. exact next_wraps. Qed.
Print Assumptions C13_next_wrap.
(** C13.  A range of n segments. *)
Theorem C13_range : forall tl size n b w, goodTimeline tl -> goodSize size -> 0 <= b -> b + Z.of_nat n * size < 2 ^ 64 -> segmentIs tl size b w ->
  exists l, walSegmentRange w size (S n) = Ok l /\ length l = S n /\
    forall i, (i <= n)%nat -> exists x, nth_error l i = Some x /\ segmentIs tl size (b + Z.of_nat i * size) x.
Proof. exact walRange_exact. Qed.
Print Assumptions C13_range.
Theorem C13_timeline : forall tl size b w, goodTimeline tl -> goodSize size -> segmentIs tl size b w -> timelineFromWalSegment w = Ok tl.
Proof. exact timeline_exact. Qed.
Print Assumptions C13_timeline.
(** 1GB segments: four per 4GB. *)
Example C13_nontrivial : goodSize 1073741824 /\
  segmentIs 1 1073741824 3221225472 (walName 1 0 3) /\ walSegmentNext (walName 1 0 3) 1073741824 = Ok (walName 1 1 0).
Proof.
  split; [split; [lia|exists 4; reflexivity]|]. split; [|vm_compute; reflexivity].
  apply (C12_segment 1 1073741824 3221225472); [unfold goodTimeline; lia|split; [lia|exists 4; reflexivity]|lia].
Qed.
