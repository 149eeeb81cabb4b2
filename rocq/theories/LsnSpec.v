(** LSNs and WAL segments as PostgreSQL defines them (access/xlog_internal.h): LSN = byte position, segment number = LSN / size, name =
    timeline, segment number / segments per 4GB, segment number mod segments per 4GB, each as 8 upper case hex digits. *)
From Verif Require Import Base Str NumSpec.
Open Scope Z_scope.

(** Eight upper case hex digits with value [n]. *)
Definition upperHex (c : Z) : Prop := 48 <= c <= 57 \/ 65 <= c <= 70.
Definition hex8Is (s : str) (n : Z) : Prop := length s = 8%nat /\ Forall upperHex s /\ digitsIs 16 s n.
(** [segmentIs tl size b w]: [w] names the segment of timeline [tl] that holds byte [b]. *)
Definition segmentIs (timeline size b : Z) (w : str) : Prop :=
  let segno := b / size in
  let perXLogId := 2 ^ 32 / size in
  exists t x y, w = t ++ x ++ y /\ hex8Is t timeline /\ hex8Is x (segno / perXLogId) /\ hex8Is y (segno mod perXLogId).
(** A WAL segment size: divides 4GB and is at least 2 (PostgreSQL: a power of two from 1MB to 1GB). *)
Definition goodSize (size : Z) : Prop := 2 <= size < 2 ^ 32 /\ (size | 2 ^ 32).
Definition goodTimeline (t : Z) : Prop := 0 < t < 2 ^ 32.
