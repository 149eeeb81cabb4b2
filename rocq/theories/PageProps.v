(** C42: the recorded page checksum errors are exact. *)
From Coq Require Import Sorted.
From Verif Require Import Base Str PageModel PageSpec PageProof PageProof2.
Open Scope nat_scope.

(** The checksum function is the interleaved hash of PostgreSQL, for every page of a valid size and every block. *)
Theorem C42_checksum : forall size page block, validSize size -> length page = size -> pgPageChecksum size page block = checksumSpec size page block.
Proof. exact checksum_exact. Qed.
Print Assumptions C42_checksum.

(** It is never zero, fits 16 bits, and does not depend on the stored checksum. *)
Theorem C42_checksum_range : forall size page block, (1 <= pgPageChecksum size page block <= 65535)%Z.
Proof. exact checksum_range. Qed.
Print Assumptions C42_checksum_range.
Theorem C42_checksum_stored : forall size p q block, length p = length q -> (forall i, i <> 8 -> i <> 9 -> nth i p 0%Z = nth i q 0%Z) -> validSize size -> length p = size ->
  pgPageChecksum size p block = pgPageChecksum size q block.
Proof. exact checksum_stored. Qed.
Print Assumptions C42_checksum_stored.

(** A page found at another block of the same group of 65536 blocks is noticed, unless the low halves of the block numbers are complements. *)
Theorem C42_moved : forall size page b1 b2, (0 <= b1)%Z -> (0 <= b2)%Z -> (b1 / 65536 = b2 / 65536)%Z -> b1 <> b2 -> Z.lxor b1 b2 <> 65535%Z ->
  pgPageChecksum size page b1 <> pgPageChecksum size page b2.
Proof. exact checksum_moved. Qed.
Print Assumptions C42_moved.

(** For a file read in buffers of whole pages but the last, the error flag is set iff the size is not a multiple of the page size or there is a bad
    page.  The list of a file of whole pages expands to exactly the bad pages in order, in the shortest form. *)
Theorem C42_exact : forall seg size hc reread segmentNo bufs last now,
  let file := concat (bufs ++ [last]) in
  let base := (segmentNo * seg)%Z in
  validSize size -> (0 < seg)%Z -> (0 <= segmentNo)%Z -> (Z.of_nat (pageCount size file) <= seg)%Z -> (base + Z.of_nat (pageCount size file) < 2 ^ 32)%Z ->
  (forall k, k < length file / size -> reread (Z.of_nat (k * size)) = Some (now k)) ->
  Forall (fun b => length b mod size = 0) bufs ->
  exists flag lst ks,
    pageFile seg size hc reread segmentNo (bufs ++ [last]) = Ok (flag, lst) /\
    StronglySorted lt ks /\ (forall k, In k ks <-> k < length file / size /\ pageBad size hc now file base k) /\
    (flag = true <-> length file mod size <> 0 \/ ks <> []) /\
    (length file mod size <> 0 -> lst = None) /\
    (length file mod size = 0 -> match lst with
                                 | None => ks = []
                                 | Some l => ks <> [] /\ expand (map toItem l) = map (fun k => (base + Z.of_nat k)%Z) ks /\ compact (map toItem l)
                                 end).
Proof. intros. apply file_spec; assumption. Qed.
Print Assumptions C42_exact.

(** The range form of any ascending list of pages expands to the list. *)
Theorem C42_ranges : forall x l, (0 <= x)%Z -> StronglySorted Z.lt (x :: l) -> Forall (fun y => (y < 2 ^ 32 - 1)%Z) (x :: l) ->
  exists r, pageMerge (Some (x :: l)) = Ok (Some r) /\ expand (map toItem r) = x :: l /\ compact (map toItem r).
Proof.
  intros x l H S F. eexists. split; [reflexivity|]. pose proof (merge_spec l [] x x (conj H (Z.le_refl _)) S F I I) as (A & B). cbv zeta in A, B.
  split; [|exact B]. rewrite A. replace (x - x + 1)%Z with 1%Z by lia. change (Z.to_nat 1) with 1. cbn. rewrite Z.add_0_r. reflexivity.
Qed.
Print Assumptions C42_ranges.

(** The hypothesis on the buffers does not hold for every configuration.  With pages of 32 KiB and buffer-size 16 KiB (allowed) the backup of a file of
    one page ends in an assertion. *)
Theorem C42_split_refuted : forall seg hc reread segmentNo, exists bufs,
  Forall (fun b => length b = 16 * 1024) bufs /\ allZero (concat bufs) /\ length (concat bufs) = 32 * 1024 /\ pageFile seg (32 * 1024) hc reread segmentNo bufs = Err EAssert.
Proof.
  intros seg hc reread segmentNo. set (b := repeat 0%Z (16 * 1024)). assert (L : length b = 16 * 1024) by apply repeat_length.
  assert (Z0 : allZero b). { apply Forall_forall. intros x Hx. apply repeat_spec in Hx. exact Hx. }
  clearbody b. exists [b; b]. split; [auto|]. split; [cbn [concat]; rewrite app_nil_r; apply Forall_app; auto|]. split; [cbn [concat]; rewrite app_nil_r, app_length; lia|].
  apply split_assert; lia.
Qed.
Print Assumptions C42_split_refuted.

(** A file of six pages: good, all zero, bad, bad, changed under the reader, bad.  It is in segment 1. *)
Definition exPage (x : Z) (block : Z) (d : Z) : list Z :=
  let p := repeat x 1024 in let c := (pgPageChecksum 1024 p block + d)%Z in firstn 8 p ++ [(c mod 256)%Z; (c / 256)%Z] ++ skipn 10 p.
Definition exFile : list (list Z) := [exPage 1 131072 0; repeat 0%Z 1024; exPage 3 131074 1; exPage 4 131075 2; exPage 5 131076 3; exPage 6 131077 4].
Definition exNow (k : nat) : list Z := if k =? 4 then exPage 9 131076 0 else nth k exFile [].
Definition exRead (o : Z) : option (list Z) := Some (exNow (Z.to_nat (o / 1024))).
Example C42_nontrivial : let bufs := [concat (firstn 2 exFile); concat (firstn 3 (skipn 2 exFile))] in let last := concat (skipn 5 exFile) in
  let file := concat (bufs ++ [last]) in
  validSize 1024 /\ (Z.of_nat (pageCount 1024 file) <= 131072)%Z /\ (1 * 131072 + Z.of_nat (pageCount 1024 file) < 2 ^ 32)%Z /\
  (forall k, k < length file / 1024 -> exRead (Z.of_nat (k * 1024)) = Some (exNow k)) /\ Forall (fun b => length b mod 1024 = 0) bufs /\
  pageFile 131072 1024 true exRead 1 (bufs ++ [last]) = Ok (true, Some [Range 131074 131075; Page 131077]).
Proof.
  cbv zeta. split; [exists 0; split; [lia|reflexivity]|]. split; [vm_compute; discriminate|]. split; [vm_compute; reflexivity|].
  split; [|split; [repeat constructor|vm_compute; reflexivity]]. intros k _. unfold exRead. do 2 f_equal. rewrite Nat2Z.inj_mul. change (Z.of_nat 1024) with 1024%Z.
  rewrite Z.div_mul by lia. apply Nat2Z.id.
Qed.
(** The values of the unit test in /repo/test/src/module/postgres/interfaceTest.c, pages of 0xFF. *)
Example C42_checksum_nontrivial : map (fun n => (pgPageChecksum n (repeat 255%Z n) 0, pgPageChecksum n (repeat 255%Z n) 999)) [1024; 2 * 1024; 4 * 1024] =
  [(0x016E, 0x0391); (0xB57B, 0xB7A2); (0x5B9B, 0x5BB8)]%Z.
Proof. vm_compute. reflexivity. Qed.
