(** Properties C31, C43 and C45: list merge, process list and status files of asynchronous archive-push. *)
From Verif Require Import Base Str ConvertModel NumModel SpoolModel SpoolSpec SpoolProof.
From Coq Require Import Sorted.
Open Scope Z_scope.

(** C45.  On sorted lists (the first without duplicates) the merge is the set difference in order. *)
Theorem C45_difference : forall this anti, StronglySorted slt this -> StronglySorted sle anti ->
  StronglySorted slt (strLstMergeAnti this anti) /\ forall x, In x (strLstMergeAnti this anti) <-> In x this /\ ~ In x anti.
Proof.
  intros this anti H1 H2. rewrite (mergeAnti_filter this anti H1 H2). split; [now apply StronglySorted_filter|]. intros x. rewrite filter_In.
  destruct (strLstExists_spec anti x); cbn; intuition congruence.
Qed.
Print Assumptions C45_difference.
(** C45.  On any lists, whatever their order, nothing outside the second list is lost and nothing is invented. *)
Theorem C45_unsorted : forall this anti x, (In x this -> ~ In x anti -> In x (strLstMergeAnti this anti)) /\ (In x (strLstMergeAnti this anti) -> In x this).
Proof. intros this anti x. split; [apply mergeAnti_keeps|]. intros H. eapply sublist_in; [apply mergeAnti_sublist|exact H]. Qed.
Print Assumptions C45_unsorted.
(** C45.  The set difference fails for sorted lists with duplicates: the second of two equal elements is kept although it is in the second
    list. *)
Theorem C45_duplicate_refuted : exists this anti x, StronglySorted sle this /\ StronglySorted sle anti /\ In x anti /\ In x (strLstMergeAnti this anti).
Proof.
  exists [[97];[97]], [[97]], [97]. split; [repeat constructor; discriminate|]. split; [repeat constructor|]. split; [now left|]. vm_compute. now left.
Qed.
Print Assumptions C45_duplicate_refuted.
Example C45_nontrivial : StronglySorted slt [[97];[98];[98;99];[100]] /\ StronglySorted sle [[96];[98];[98];[99]] /\
  strLstMergeAnti [[97];[98];[98;99];[100]] [[96];[98];[98];[99]] = [[97];[98;99];[100]].
Proof. split; [repeat constructor; reflexivity|]. split; [repeat constructor; discriminate|reflexivity]. Qed.

(** C31.  When no WAL file name is a proper prefix of another, the list to push is exactly the ready files without ok status, in order, and
    the spool keeps exactly the ok files of ready WAL files. *)
Theorem C31_exact : forall spool names, isDir spool -> NoDup names -> prefixFree (fun n => isReady names n \/ hasOk spool n) ->
  exists spool' l, pushProcessList spool names = Ok (spool', l) /\ StronglySorted slt l /\
    (forall n, In n l <-> isReady names n /\ ~ hasOk spool n) /\
    (forall n c, In (n, c) spool' <-> In (n, c) spool /\ exists m, n = m ++ [46;111;107] /\ isReady names m).
Proof. intros spool names Hd Hn Hf. now apply process_exact. Qed.
Print Assumptions C31_exact.
(** C31.  For any names: only ready files are pushed, no ready file without ok status is left out, every file kept in the spool is the
    unchanged ok file of a ready WAL file, and removing status files never fails. *)
Theorem C31_sound : forall spool names, isDir spool ->
  exists spool' l, pushProcessList spool names = Ok (spool', l) /\
    (forall n, In n l -> isReady names n) /\ (forall n, isReady names n -> ~ hasOk spool n -> In n l) /\
    (forall n c, In (n, c) spool' -> In (n, c) spool /\ exists m, n = m ++ [46;111;107] /\ isReady names m).
Proof.
  intros spool names Hd. destruct (process_sound spool names Hd) as (s & l & E & A & B & C & D). exists s, l. repeat (split; [assumption|]). intros n c H. split; [now apply C|now apply (D n c)].
Qed.
Print Assumptions C31_sound.
(** C31.  The exact statement is false without the prefix condition: with both a segment X and the backup file X.00000028.backup ready,
    and X already pushed, the ok file of X is removed and X is pushed again, because the lists are sorted with their extensions and merged
    without them. *)
Theorem C31_backup_file_refuted : exists spool names x, isDir spool /\ NoDup names /\ isReady names x /\ hasOk spool x /\
  exists spool' l, pushProcessList spool names = Ok (spool', l) /\ In x l /\ ~ hasOk spool' x.
Proof.
  set (x := [48;48;48;48;48;48;48;49;48;48;48;48;48;48;48;48;48;48;48;48;48;48;48;50]).
  set (b := x ++ [46;48;48;48;48;48;48;50;56;46;98;97;99;107;117;112]).
  exists [(x ++ extOk, [])], [x ++ extReady; b ++ extReady], x.
  split; [repeat constructor; cbn; tauto|]. split; [repeat constructor; cbn; try tauto; intros [H|[]]; discriminate|]. split; [now left|]. split; [exists []; now left|].
  eexists _, _. split; [vm_compute; reflexivity|]. split; [right; now left|]. intros (c & []).
Qed.
Print Assumptions C31_backup_file_refuted.
(** C31.  The queue limit: at least one file is kept, files are dropped from the end only, and no more than the batch size allows. *)
Theorem C31_batch : forall batchSize segSize l l', 0 <= batchSize -> 0 <= segSize -> pushBatch batchSize segSize l = Ok l' ->
  (exists t, l = l' ++ t) /\ (l <> [] -> l' <> []) /\ (Z.of_nat (length l') * segSize <= batchSize \/ (length l' <= 1)%nat) /\
  (l' <> l -> batchSize < (Z.of_nat (length l') + 1) * segSize).
Proof.
  intros b s l l' Hb Hs. unfold pushBatch. destruct (Z.eqb_spec s 0); [discriminate|]. intros [= <-]. assert (Hd : 0 <= b / s) by (apply Z.div_pos; lia).
  rewrite batchLimit_firstn by (exact Hd || lia). set (q := b / s) in *. assert (Hq : q * s <= b < (q + 1) * s) by (pose proof (Z.mul_div_le b s ltac:(lia)); pose proof (Z.mul_succ_div_gt b s ltac:(lia)); fold q in H, H0; lia).
  clearbody q. set (k := Z.to_nat (Z.max 1 (Z.min q (Z.of_nat (length l))))). split; [exists (skipn k l); symmetry; apply firstn_skipn|].
  assert (Hlen : length (firstn k l) = Nat.min k (length l)) by apply firstn_length. split; [|split].
  - intros Hl E. destruct l; [congruence|]. unfold k in E. destruct (Z.to_nat (Z.max 1 (Z.min q (Z.of_nat (length (s0 :: l)))))) eqn:X; [lia|discriminate].
  - rewrite Hlen. destruct (Z.ltb_spec q 1); [right; lia|]. left. assert (Z.of_nat (Nat.min k (length l)) <= q) by lia. nia.
  - intros Hne. assert (Hk : (k < length l)%nat) by (destruct (Nat.ltb_spec k (length l)); [assumption|]; exfalso; apply Hne; now apply firstn_all2).
    rewrite Hlen. assert (q <= Z.of_nat (Nat.min k (length l))) by lia. nia.
Qed.
Print Assumptions C31_batch.
(** C31.  WAL is dropped exactly when the total size exceeds the limit (sizes whose product fits 64 bits). *)
Theorem C31_drop : forall queueMax size l, 0 <= queueMax -> 0 <= size -> size * Z.of_nat (length l) < 2 ^ 64 ->
  pushDrop queueMax size l = true <-> queueMax < size * Z.of_nat (length l).
Proof.
  intros q s l Hq Hs Hl. unfold pushDrop. rewrite Z.ltb_lt. destruct l as [|x r]; [cbn [length]; lia|]. rewrite Z.mod_small; [reflexivity|]. unfold two64. split; [lia|exact Hl].
Qed.
Print Assumptions C31_drop.
Example C31_nontrivial : let names := [[98;46;114;101;97;100;121];[97;46;114;101;97;100;121];[99;46;100;111;110;101]] in
  let spool := [([97;46;111;107],[]);([99;46;111;107],[]);([98;46;101;114;114;111;114],[49;10;120])] in
  isDir spool /\ NoDup names /\ prefixFree (fun n => isReady names n \/ hasOk spool n) /\
  pushProcessList spool names = Ok ([([97;46;111;107],[])], [[98]]) /\ pushDrop 31 16 [[97];[98]] = true /\ pushBatch 32 16 [[97];[98];[99]] = Ok [[97];[98]].
Proof.
  cbv zeta. split; [repeat constructor; cbn; intuition discriminate|]. split; [repeat constructor; cbn; intuition discriminate|]. split; [|repeat split; vm_compute; reflexivity].
  assert (K : forall n, isReady [[98;46;114;101;97;100;121];[97;46;114;101;97;100;121];[99;46;100;111;110;101]] n \/ hasOk [([97;46;111;107],[]);([99;46;111;107],[]);([98;46;101;114;114;111;114],[49;10;120])] n -> length n = 1%nat).
  { intros n [H|(c & H)]; cbn in H;
    repeat (destruct H as [H|H]; [try (injection H as H; rename H into G) || rename H into G;
      try (apply (f_equal (@length Z)) in G; rewrite app_length in G; cbn in G; lia) |]); try contradiction.
    - apply (f_equal (@rev Z)) in G. rewrite rev_app_distr in G. discriminate.
    - apply (f_equal (@rev Z)) in G. rewrite rev_app_distr in G. discriminate. }
  intros a b Ha Hb (t & ->). apply K in Ha, Hb. rewrite app_length in Hb. destruct t; [now rewrite app_nil_r|cbn in Hb; lia].
Qed.

(** C43.  Success is reported only when there is an ok file for the segment. *)
Theorem C43_success_needs_ok : forall spool seg throwOnError warnOnOk w, asyncStatus spool seg throwOnError warnOnOk = Ok (StTrue w) -> exists c, In (seg ++ [46;111;107], c) spool.
Proof.
  intros d seg t wo w H. apply status_true_ok in H. destruct H as (c & H). exists c. clear -H. change [46;111;107] with extOk. revert H. generalize (seg ++ extOk). intros n.
  induction d as [|[m e] r IH]; cbn; [discriminate|]. destruct (strEqb_spec m n) as [->|N]; [intros [= ->]; now left|]. intros H. right. now apply IH.
Qed.
Print Assumptions C43_success_needs_ok.
(** C43.  An error of the segment, or a global error, is reported (never success, never "try again") once errors are to be thrown, whatever
    the file holds. *)
Theorem C43_error_seen : forall spool seg warnOnOk, isDir spool -> ~ hasOk spool seg ->
  (exists c, In (seg ++ [46;101;114;114;111;114], c) spool \/ In ([103;108;111;98;97;108;46;101;114;114;111;114], c) spool) ->
  (exists code m, asyncStatus spool seg true warnOnOk = Ok (StThrow code m)) \/ (exists e, asyncStatus spool seg true warnOnOk = Err e).
Proof.
  intros d seg w Hd Ho (c & Hc). apply status_error_seen.
  - destruct (dirGet d (seg ++ extOk)) eqn:E; [|reflexivity]. exfalso. apply Ho. exists s. apply dirGet_in in E; [exact E|exact Hd].
  - destruct Hc as [Hc|Hc]; [left|right]; apply dirGet_in in Hc; try exact Hd.
    + change (dirGet d (seg ++ extError) = Some c) in Hc. congruence.
    + change (dirGet d (statusGlobal ++ extError) = Some c) in Hc. congruence.
Qed.
Print Assumptions C43_error_seen.
(** C43.  The error is the one that was written, the message without surrounding white space. *)
Theorem C43_error_written : forall spool seg code message spool' warnOnOk, isDir spool -> ~ hasOk spool seg -> - 2 ^ 31 <= code < 2 ^ 31 -> message <> [] ->
  asyncErrorWrite spool (Some seg) code message = Ok spool' -> asyncStatus spool' seg true warnOnOk = Ok (StThrow code (strTrim message)).
Proof.
  intros d seg code m d' w Hd Ho Hc Hm E. rewrite (status_error_write d seg code m d' w true E); auto.
  destruct (dirGet d (seg ++ extOk)) eqn:X; [|reflexivity]. exfalso. apply Ho. exists s. apply dirGet_in in X; [exact X|exact Hd].
Qed.
Print Assumptions C43_error_written.
Theorem C43_global_written : forall spool seg code message spool' warnOnOk, isDir spool -> ~ hasOk spool seg ->
  (forall c, ~ In (seg ++ [46;101;114;114;111;114], c) spool) -> - 2 ^ 31 <= code < 2 ^ 31 -> message <> [] ->
  asyncErrorWrite spool None code message = Ok spool' -> asyncStatus spool' seg true warnOnOk = Ok (StThrow code (strTrim message)).
Proof.
  intros d seg code m d' w Hd Ho He Hc Hm E. rewrite (status_global_write d seg code m d' w true E); auto.
  - destruct (dirGet d (seg ++ extOk)) eqn:X; [|reflexivity]. exfalso. apply Ho. exists s. apply dirGet_in in X; [exact X|exact Hd].
  - destruct (dirGet d (seg ++ extError)) eqn:X; [|reflexivity]. exfalso. apply (He s). apply dirGet_in in X; [exact X|exact Hd].
Qed.
Print Assumptions C43_global_written.
Theorem C43_trim : forall s, exists a b, s = a ++ strTrim s ++ b /\ Forall white a /\ Forall white b /\
  (forall c r, strTrim s = c :: r -> ~ white c) /\ (forall c r, strTrim s = r ++ [c] -> ~ white c).
Proof. exact strTrim_spec. Qed.
Print Assumptions C43_trim.
(** C43.  Success written is success read, with the warning of the writer. *)
Theorem C43_ok_written : forall spool seg throwOnError, asyncStatus (asyncOkWrite spool seg None) seg throwOnError true = Ok (StTrue None) /\
  forall m, m <> [] -> asyncStatus (asyncOkWrite spool seg (Some m)) seg throwOnError true = Ok (StTrue (Some (Warn (strTrim m)))).
Proof. intros d seg t. apply (status_ok_write d seg true t). Qed.
Print Assumptions C43_ok_written.
(** C43.  Clearing errors removes the error of the segment and the global error and nothing else. *)
Theorem C43_error_clear : forall spool seg n c, In (n, c) (asyncErrorClear spool seg) <->
  In (n, c) spool /\ n <> seg ++ [46;101;114;114;111;114] /\ n <> [103;108;111;98;97;108;46;101;114;114;111;114].
Proof. intros d seg n c. unfold asyncErrorClear. rewrite !dirRemove_in. cbn [fst]. change (statusGlobal ++ extError) with [103;108;111;98;97;108;46;101;114;114;111;114]. change extError with [46;101;114;114;111;114]. tauto. Qed.
Print Assumptions C43_error_clear.
Example C43_nontrivial : exists d, asyncErrorWrite [([97;46;111;107],[])] (Some [98]) 42 [32;120;121;10] = Ok d /\
  asyncStatus d [98] true true = Ok (StThrow 42 [120;121]) /\ asyncStatus d [98] false true = Ok StFalse /\ asyncStatus d [97] true true = Ok (StTrue None).
Proof. eexists. split; [reflexivity|]. repeat split; vm_compute; reflexivity. Qed.
