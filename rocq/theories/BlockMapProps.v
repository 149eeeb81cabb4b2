(** Property C25: the block map. *)
From Verif Require Import Base ConvertModel ConvertProof BlockMapModel BlockMapSpec BlockMapProof2.
Open Scope Z_scope.

(** C25.  Reading what was written for a map gives the map back and stops exactly after it.  The map must list the blocks of each backup in
    the order they are stored there, neighbours being neighbours; [C25_backup_maps] shows that backups make such maps. *)
Theorem C25_round_trip : forall bs cs m, 0 < bs < 2 ^ 62 -> mapOk cs m -> m <> [] ->
  exists bytes, blockMapWrite bs m = Ok bytes /\ forall tail, blockMapRead bs cs (bytes ++ tail) = Ok (m, tail).
Proof. intros bs cs m Hb Hm Ne. now apply map_round_trip. Qed.
Print Assumptions C25_round_trip.
(** C25.  The empty map is written without complaint, but what is written can not be read. *)
Theorem C25_empty_map_refuted : forall bs cs, exists bytes, blockMapWrite bs [] = Ok bytes /\ blockMapRead bs cs bytes = Err EFileRead.
Proof. intros bs cs. exists [0]. split; reflexivity. Qed.
Print Assumptions C25_empty_map_refuted.
(** C25.  A map with the version flag set is rejected, whatever follows. *)
Theorem C25_version : forall bs cs v w tail, 0 <= v < 2 ^ 64 -> Z.odd v = true -> toVarInt v = Ok w -> blockMapRead bs cs (w ++ tail) = Err EFormat.
Proof.
  intros bs cs v w tail Hv Ho E. destruct (roundtrip v Hv) as (t & E1 & _ & _ & _ & R). assert (w = t) by congruence. subst w. unfold blockMapRead, rVar. rewrite R. cbn [bind]. rewrite Z.bit0_odd, Ho. reflexivity.
Qed.
Print Assumptions C25_version.

(** Backup 0 has two super blocks, backup 3 (in bundle 7) stored block 1 and 2 again, backup 5 block 6. *)
Definition c25_map : list item :=
  [mkItem 0 16 0 0 5 0 [1; 2]; mkItem 3 16 7 100 9 0 [3; 4]; mkItem 3 16 7 100 9 1 [5; 6]; mkItem 0 16 0 5 6 1 [7; 8];
   mkItem 0 20 0 11 700 0 [1; 1]; mkItem 0 20 0 11 700 1 [1; 1]; mkItem 5 3 0 0 4 0 [2; 2]].
Example C25_nontrivial : mapOk 2 c25_map /\ exists bytes, blockMapWrite 8 c25_map = Ok bytes /\ blockMapRead 8 2 (bytes ++ [9; 9]) = Ok (c25_map, [9; 9]).
Proof.
  split; [|eexists; split; [vm_compute; reflexivity|vm_compute; reflexivity]]. split; [repeat constructor; cbn; lia|].
  change (pairOk c25_map). unfold c25_map.
  repeat (apply pairOk_cons; [repeat (apply headOk_cons; [cbn; intros; try discriminate; unfold orderOk, nextOk; cbn; lia|]); apply headOk_nil|]); apply pairOk_nil.
Qed.
