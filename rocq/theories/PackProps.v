(** Properties C09 and C10: the pack format. *)
From Verif Require Import Base ConvertModel PackModel PackSpec PackProof PackProof2 PackProof3.
Open Scope Z_scope.

(** C09.  Whatever legal calls wrote a pack, the same calls reading it return what was written (nulls and defaults included) and stop exactly
    after the pack. *)
Theorem C09_round_trip : forall ops fs, writes 0 0 ops fs -> aligned 0 true ops ->
  exists bytes, packWrite ops = Ok bytes /\ forall tail, packRead (bytes ++ tail) (map mirror ops) = Ok (map expect ops, tail).
Proof.
  intros ops fs W A. destruct (packWrite_spec ops fs W) as (b & E & En). exists (b ++ [0]). split; [exact E|]. intros tail. rewrite <- app_assoc.
  destruct (mirror_reads 0 0 ops fs W 0 true [] ltac:(repeat split; lia) A) as (p & R & U); [intros j v []|]. cbn [app] in R, U.
  eapply pack_read_gen; [exact En|exact R|]. intros j t sub Hj Hj'. specialize (U _ _ Hj). lia.
Qed.
Print Assumptions C09_round_trip.
(** C09.  The alignment condition is needed: a null written with an id is only counted as one id by the writer, so that after writing default
    id 3 and then a value without id, the value is written with id 2 and reading in the same order does not find it. *)
Theorem C09_null_id_refuted : exists ops fs bytes, writes 0 0 ops fs /\ packWrite ops = Ok bytes /\ packRead bytes (map mirror ops) <> Ok (map expect ops, []) /\
  fs = [(2, VS (SU32 7))].
Proof.
  exists [WScalar 3 false (Some (SU32 0)) (Some (SU32 0)); WScalar 0 false None (Some (SU32 7))], [(2, VS (SU32 7))], [137; 7; 0].
  split; [|split; [reflexivity|split; [vm_compute; discriminate|reflexivity]]].
  apply w_default. eapply w_value; [right; discriminate|reflexivity|cbn; unfold idMax; lia|cbn; lia|constructor].
Qed.
Print Assumptions C09_null_id_refuted.
Definition c09_ops : list wop :=
  [WScalar 0 false None (Some (SU32 300)); WNull; WScalar 7 false (Some (SBool false)) (Some (SBool false));
   WCont 5 40 [WScalar 0 true (Some (SStr [])) (Some (SStr [97; 98])); WCont 1 0 [WScalar 0 false None (Some (SI32 (-5))); WNull]; WScalar 9 false None None];
   WScalar 0 false None (Some (SPack [1; 2; 3])); WScalar 1000 false None (Some (STime (-1)))].
Example C09_nontrivial : (exists fs, writes 0 0 c09_ops fs) /\ aligned 0 true c09_ops /\
  exists bytes, packWrite c09_ops = Ok bytes /\ packRead (bytes ++ [9]) (map mirror c09_ops) = Ok (map expect c09_ops, [9]).
Proof.
  assert (S : forall (A B : Prop), A -> (A -> B) -> A /\ B) by tauto.
  split; [|split].
  - eexists. unfold c09_ops. eapply w_value; [right; discriminate|reflexivity|cbn; unfold idMax; lia|cbn; lia|]. apply w_null. apply w_default.
    eapply w_cont; [now right|reflexivity|cbn; unfold idMax; lia| |].
    + eapply w_value; [now left|reflexivity|cbn; unfold idMax; lia|cbn; lia|]. eapply w_cont; [now left|reflexivity|cbn; unfold idMax; lia| |].
      * eapply w_value; [right; discriminate|reflexivity|cbn; unfold idMax; lia|cbn; lia|]. apply w_null. constructor.
      * apply w_default. constructor.
    + eapply w_value; [right; discriminate|reflexivity|cbn; unfold idMax; lia|cbn; lia|]. eapply w_value; [right; discriminate|reflexivity|cbn; unfold idMax; lia|cbn; lia|]. constructor.
  - unfold c09_ops. eapply a_value; [right; discriminate|auto|reflexivity|cbn; lia|]. apply a_null; [unfold idMax; cbn; lia|]. eapply a_default; [reflexivity|cbn; unfold idMax; lia|].
    eapply a_cont; [discriminate|reflexivity|cbn; lia| |].
    + eapply a_value; [now left|auto|reflexivity|cbn; lia|]. eapply a_cont; [auto|reflexivity|cbn; lia| |].
      * eapply a_value; [right; discriminate|auto|reflexivity|cbn; lia|]. apply a_null; [unfold idMax; cbn; lia|]. constructor.
      * eapply a_default; [reflexivity|cbn; unfold idMax; lia|]. constructor.
    + eapply a_value; [right; discriminate|auto|reflexivity|cbn; lia|]. eapply a_value; [right; discriminate|auto|reflexivity|cbn; lia|]. constructor.
  - eexists. split; [vm_compute; reflexivity|]. reflexivity.
Qed.

(** C10.  Reading calls that skip any fields but whole containers, ask for ids that are absent, test for null, or end containers early, get
    exactly what is in the pack. *)
Theorem C10_skip : forall ops fs rops outs l, writes 0 0 ops fs -> reads fs 0 rops outs l -> noCont fs l (idMax + 1) ->
  exists bytes, packWrite ops = Ok bytes /\ forall tail, packRead (bytes ++ tail) rops = Ok (outs, tail).
Proof.
  intros ops fs rops outs l W R N. destruct (packWrite_spec ops fs W) as (b & E & En). exists (b ++ [0]). split; [exact E|]. intros tail. rewrite <- app_assoc.
  eapply pack_read_gen; eauto.
Qed.
Print Assumptions C10_skip.
(** C10.  A container can not be skipped: its fields are then taken for fields of the enclosing one. *)
Theorem C10_skip_container_refuted : exists ops fs bytes, writes 0 0 ops fs /\ packWrite ops = Ok bytes /\ fs = [(1, VC 5 [(1, VS (SU32 7))]); (2, VS (SU32 8))] /\
  packRead bytes [RScalar KU32 2 None] = Ok ([OScalar (Some (SU32 7))], [136; 8; 0]).
Proof.
  exists [WCont 5 0 [WScalar 0 false None (Some (SU32 7))]; WScalar 0 false None (Some (SU32 8))], [(1, VC 5 [(1, VS (SU32 7))]); (2, VS (SU32 8))], [80; 136; 7; 0; 136; 8; 0].
  split; [|split; [reflexivity|split; reflexivity]].
  eapply w_cont; [now right|reflexivity|cbn; unfold idMax; lia| |].
  - eapply w_value; [right; discriminate|reflexivity|cbn; unfold idMax; lia|cbn; lia|constructor].
  - eapply w_value; [right; discriminate|reflexivity|cbn; unfold idMax; lia|cbn; lia|constructor].
Qed.
Print Assumptions C10_skip_container_refuted.
(** C10.  A field is never returned as a value of another type, and ids already passed are rejected. *)
Theorem C10_wrong_type : forall ops fs rops outs l o i v t, writes 0 0 ops fs -> reads fs 0 rops outs l -> i = (if ropId o =? 0 then l + 1 else ropId o) -> l < i <= idMax -> noCont fs l i ->
  In (i, v) fs -> ropType o = Some t -> t <> vType v ->
  exists bytes, packWrite ops = Ok bytes /\ forall tail, packRead (bytes ++ tail) (rops ++ [o]) = Err EFormat.
Proof.
  intros ops fs rops outs l o i v t W R Hi Hr Hn Hin Ht Hne. destruct (packWrite_spec ops fs W) as (b & E & En). exists (b ++ [0]). split; [exact E|]. intros tail. rewrite <- app_assoc.
  destruct (reads_state fs b rops outs l tail En R) as (r1 & E1 & A1 & L1). unfold packRead. cbn [app]. rewrite runRs_app, E1. cbn [bind runRs]. now rewrite (wrong_type fs tail l r1 o i v t A1 Hi Hr Hn Hin Ht Hne).
Qed.
Print Assumptions C10_wrong_type.
Theorem C10_passed_id : forall ops fs rops outs l o, writes 0 0 ops fs -> reads fs 0 rops outs l -> 0 < ropId o <= l ->
  exists bytes, packWrite ops = Ok bytes /\ forall tail, packRead (bytes ++ tail) (rops ++ [o]) = Err EFormat.
Proof.
  intros ops fs rops outs l o W R H. destruct (packWrite_spec ops fs W) as (b & E & En). exists (b ++ [0]). split; [exact E|]. intros tail. rewrite <- app_assoc.
  destruct (reads_state fs b rops outs l tail En R) as (r1 & E1 & A1 & L1). unfold packRead. cbn [app]. rewrite runRs_app, E1. cbn [bind runRs]. now rewrite (old_id fs tail l r1 o A1 H).
Qed.
Print Assumptions C10_passed_id.
(** C10.  A container that is absent is not noticed when it is begun: fields after it are then read as if they were in it. *)
Theorem C10_absent_container_refuted : exists ops fs bytes, writes 0 0 ops fs /\ packWrite ops = Ok bytes /\ fs = [(2, VS (SU32 8))] /\
  packRead bytes [RCont 5 1 [RScalar KU32 2 None]] = Err EFormat /\ runRs (pckReadNew bytes) [RCont 5 1 [RScalar KU32 2 None]] <> Err EFormat.
Proof.
  exists [WNull; WScalar 0 false None (Some (SU32 8))], [(2, VS (SU32 8))], [137; 8; 0].
  split; [apply w_null; eapply w_value; [right; discriminate|reflexivity|cbn; unfold idMax; lia|cbn; lia|constructor]|].
  split; [reflexivity|]. split; [reflexivity|]. split; [reflexivity|vm_compute; discriminate].
Qed.
Print Assumptions C10_absent_container_refuted.
(** C10.  Any bytes are read to the end of the calls or rejected with a format error; the search for a field always ends. *)
Theorem C10_any_bytes : forall b ops, match packRead b ops with Ok _ => True | Err e => e = EFormat | UB => False end.
Proof. intros b ops. apply packRead_okd. Qed.
Print Assumptions C10_any_bytes.
Definition c10_ops : list wop :=
  [WScalar 0 false None (Some (SU32 300)); WScalar 0 false None (Some (SStr [97; 98; 99])); WScalar 0 false None (Some (SBin [1]));
   WCont 5 0 [WScalar 2 false None (Some (SPack [5; 6])); WScalar 0 false None (Some (SBool true))]; WScalar 10 false None (Some (SU64 5))].
Definition c10_fs : list (Z * val) :=
  [(1, VS (SU32 300)); (2, VS (SStr [97; 98; 99])); (3, VS (SBin [1])); (4, VC 5 [(2, VS (SPack [5; 6])); (3, VS (SBool true))]); (10, VS (SU64 5))].
Example C10_nontrivial : writes 0 0 c10_ops c10_fs /\
  reads c10_fs 0 [RNull 3; RCont 5 4 [RScalar KU32 1 None]; RNull 0; RScalar KU32 8 (Some (SU32 4)); RScalar KU64 10 None]
    [ONull false; OCont [OScalar None]; ONull true; OScalar (Some (SU32 4)); OScalar (Some (SU64 5))] 10.
Proof.
  split.
  - unfold c10_ops, c10_fs. do 3 (eapply w_value; [right; discriminate|reflexivity|cbn; unfold idMax; lia|cbn; lia|]).
    eapply w_cont; [now right|reflexivity|cbn; unfold idMax; lia| |].
    + do 2 (eapply w_value; [right; discriminate|reflexivity|cbn; unfold idMax; lia|cbn; lia|]). constructor.
    + eapply w_value; [right; discriminate|reflexivity|cbn; unfold idMax; lia|cbn; lia|]. constructor.
  - assert (N : forall a b, b <= 4 \/ 4 <= a -> noCont c10_fs a b).
    { intros a b H j t sub Hj Hj'. unfold c10_fs in Hj. cbn in Hj. repeat (destruct Hj as [Hj|Hj]; [injection Hj; intros; try discriminate; lia|]). destruct Hj. }
    assert (A : forall i v, i <> 1 -> i <> 2 -> i <> 3 -> i <> 4 -> i <> 10 -> ~ In (i, v) c10_fs).
    { intros i v ? ? ? ? ? Hj. cbn in Hj. repeat (destruct Hj as [Hj|Hj]; [injection Hj; intros; subst; congruence|]). destruct Hj. }
    eapply r_not_null with (m := 2); [reflexivity|cbn; unfold idMax; lia|apply N; cbn; lia|cbn; auto| |].
    { split; [cbn; lia|]. split; [right; eexists; cbn; auto|]. intros j w Hj Hj'. cbn in Hj, Hj'. repeat (destruct Hj as [Hj|Hj]; [injection Hj; intros; subst; lia|]). destruct Hj. }
    eapply r_cont; [reflexivity|cbn; unfold idMax; lia|apply N; cbn; lia|cbn; auto 6| | |].
    { eapply r_default; [reflexivity|cbn; unfold idMax; lia| | |constructor].
      - intros j t sub Hj _. cbn in Hj. repeat (destruct Hj as [Hj|Hj]; [discriminate|]). destruct Hj.
      - intros v Hj. cbn in Hj. repeat (destruct Hj as [Hj|Hj]; [discriminate|]). destruct Hj. }
    { intros j t sub Hj _. cbn in Hj. repeat (destruct Hj as [Hj|Hj]; [discriminate|]). destruct Hj. }
    eapply r_null; [reflexivity|cbn; unfold idMax; lia|apply N; cbn; lia|intros v; apply A; cbn; lia|].
    eapply r_default; [reflexivity|cbn; unfold idMax; lia|apply N; cbn; lia|intros v; apply A; cbn; lia|].
    eapply r_value; [reflexivity|cbn; unfold idMax; lia|apply N; cbn; lia|cbn; auto 7|reflexivity|]. constructor.
Qed.
