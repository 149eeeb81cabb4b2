(** Properties C25, C26, C44: restore of block incremental and other files. *)
From Verif Require Import Base Str BlockMapModel BlockMapSpec BlockIncrModel BlockIncrSpec BlockIncrProof BlockCheckProof RestoreFileModel RestoreFileSpec RestoreFileProof RestoreFileProof2 RestoreFileProof3 BlockChainSpec BlockChainProof.
Open Scope Z_scope.

(** C25.  The maps written by any sequence of backups of a file are all of the kind for which reading gives back the map (C25_round_trip), and
    reading the map of the last backup gives a map that leads to the content that backup found. *)
Theorem C25_backup_maps : forall hash encB encM decB decM bs cs repo,
  (0 < bs)%nat -> Z.of_nat bs < 2 ^ 62 -> (forall b, length (hash b) = cs) -> (forall r n d, decB (encB r n d) = Ok d) -> (forall r n d, decM (encM r n d) = Ok d) ->
  (forall r n d, encB r n d <> []) -> (forall r n d, encM r n d <> []) ->
  forall r v l, history hash encB encM decM bs cs repo r v l -> exists m, mapAt decM bs cs repo l m /\ mapOk cs m /\ m <> [] /\ mapHolds hash decB repo bs m v.
Proof.
  intros hash encB encM decB decM bs cs repo H1 H2 H3 H4 H5 H6 H7 r v l H. destruct (history_ok hash encB encM decB decM bs cs repo H1 H2 H3 H4 H5 H6 H7 r v l H) as (_ & m & MA & (N & MO & MH & _)). eauto.
Qed.
Print Assumptions C25_backup_maps.

(** C26.  After any sequence of backups of a file, restoring from the last one gives the content that backup found, byte for byte, whatever was
    in the destination.  Assumed of the destination: its blocks (within the size of the file) and checksum do not collide with those of the file,
    and with force a file with the same size and an old enough same time has the same content. *)
Theorem C26_block_restore : forall hash sha1 encB encM decB decM decF bs cs repo,
  (0 < cs)%nat -> (0 < bs)%nat -> Z.of_nat bs < 2 ^ 62 -> (forall b, length (hash b) = cs) -> (forall r n d, decB (encB r n d) = Ok d) -> (forall r n d, decM (encM r n d) = Ok d) ->
  (forall r n d, encB r n d <> []) -> (forall r n d, encM r n d <> []) ->
  forall r v l, history hash encB encM decM bs cs repo r v l ->
  forall delta deltaForce copyTimeBegin time dest,
    (forall c t, dest = Some (c, t) -> noCollision hash bs (firstn (length v) c) v /\ (sha1 (firstn (length v) c) = sha1 v -> firstn (length v) c = v) /\
       (deltaForce = true -> length c = length v -> t = time -> t < copyTimeBegin -> c = v)) ->
  exists res, restoreFile hash sha1 decB decM decF repo delta deltaForce copyTimeBegin (mkRf (sha1 v) (length v) time false (lSize l) bs cs (lOff l) (Some (lSize l))) (repo (lRef l) (lBundle l)) dest = Ok (res, v).
Proof.
  intros hash sha1 encB encM decB decM decF bs cs repo H0 H1 H2 H3 H4 H5 H6 H7 r v l H delta deltaForce ct time dest HD.
  destruct (history_ok hash encB encM decB decM bs cs repo H1 H2 H3 H4 H5 H6 H7 r v l H) as (Nl & m & (F & d & b & t & EF & (LF & Ed) & Edb & ER) & (Nm & MO & MH & _)).
  assert (Nv : v <> []). { intros ->. destruct MH as (bl & (Eb & Bk) & Lm & _). destruct bl as [|b0 bl]; [destruct m; [congruence|discriminate]|]. destruct (Bk [] b0 bl eq_refl) as ((B & _) & _). destruct b0; [cbn in B; lia|discriminate]. }
  assert (Lv : (length v =? 0)%nat = false) by (apply Nat.eqb_neq; destruct v; [congruence|discriminate]). assert (Ll : (lSize l =? 0)%nat = false) by now apply Nat.eqb_neq.
  assert (Copy : forall sums d0, (let base := match sums with Some _ => match d0 with Some c => c | None => [] end | None => [] end in (length base <= length v)%nat /\ (sums = None \/ sums = Some (checksumRun hash bs [base]) /\ noCollision hash bs base v)) ->
    (let data := firstn (lSize l) (skipn (lOff l) F) in
       let* c := (let* mb := decM data in let* (m0, _) := blockMapRead (Z.of_nat bs) cs mb in let* w := readsRun decB repo bs (blockDeltaNew bs cs m0 sums) in
         let base := match sums with Some _ => match d0 with Some c => c | None => [] end | None => [] end in Ok (fold_left (fun c p => writeAt c (fst p) (snd p)) w base)) in
       if strEqb (sha1 v) (sha1 c) then Ok (RCopy, c) else Err EChecksum) = Ok (RCopy, v)).
  { intros sums d0. cbv zeta. set (base := match sums with Some _ => match d0 with Some c => c | None => [] end | None => [] end). intros (Lb & Hs). rewrite <- Ed, Edb. cbn [bind]. rewrite ER. cbn [bind]. destruct (block_exact hash sha1 decB decM decF repo bs cs H1 H0 H3 m v sums base MO MH Lb Hs) as (w & Ew & Ef). rewrite Ew. cbn [bind]. rewrite Ef. destruct (strEqb_spec (sha1 v) (sha1 v)); congruence. }
  unfold restoreFile, deltaStep. cbn [rfSum rfSize rfTime rfZero rfMapSize rfBs rfCs rfOffset rfLimit]. rewrite EF, Lv, Ll. cbn [negb orb andb].
  destruct dest as [(c, tm)|]; [|exists RCopy; apply (Copy None None); cbn; split; [lia|auto]].
  destruct (HD c tm eq_refl) as (NC & SH & FO). rewrite Bool.andb_true_r. destruct delta; [|exists RCopy; apply (Copy None (Some c)); cbn; split; [lia|auto]].
  destruct deltaForce.
  - destruct ((length c =? length v)%nat && (tm =? time) && (tm <? ct)) eqn:E; [|exists RCopy; apply (Copy None (Some c)); cbn; split; [lia|auto]].
    apply andb_true_iff in E. destruct E as (E & E3). apply andb_true_iff in E. destruct E as (E1 & E2). apply Nat.eqb_eq in E1. apply Z.eqb_eq in E2. apply Z.ltb_lt in E3. exists RPreserve. now rewrite (FO eq_refl E1 E2 E3).
  - destruct ((length v <=? length c)%nat || negb (length c =? 0)%nat) eqn:E; [|exists RCopy; apply (Copy None (Some c)); cbn; split; [lia|auto]].
    set (c1 := if (length v <? length c)%nat then firstn (length v) c else c). assert (E1 : c1 = firstn (length v) c) by (unfold c1; destruct (Nat.ltb_spec (length v) (length c)); [reflexivity|rewrite firstn_all2 by lia; reflexivity]).
    assert (L1 : (length c1 <= length v)%nat) by (rewrite E1, firstn_length; lia). rewrite <- E1 in NC, SH.
    destruct ((length c1 =? length v)%nat && strEqb (sha1 v) (sha1 c1)) eqn:E2.
    + apply andb_true_iff in E2. destruct E2 as (_ & E2). destruct (strEqb_spec (sha1 v) (sha1 c1)) as [E3|]; [|discriminate]. exists RPreserve. now rewrite (SH (eq_sym E3)).
    + exists RCopy. cbn [negb]. apply (Copy (Some (checksumRun hash bs [c1])) (Some c1)). cbv zeta. split; [exact L1|]. right. auto.
Qed.
Print Assumptions C26_block_restore.

(** C44.  The outcomes of restore of one file, for any repository content.  A file is preserved only in a delta restore, when it exists, its content
    (cut to the expected size) has the expected size, and the checksum is the expected one, or with force, the size and time are and the time
    is before the copy. *)
Theorem C44_preserve : forall hash sha1 decB decM decF repo delta deltaForce copyTimeBegin f stored dest c',
  restoreFile hash sha1 decB decM decF repo delta deltaForce copyTimeBegin f stored dest = Ok (RPreserve, c') ->
  delta = true /\ rfZero f = false /\ exists c t, dest = Some (c, t) /\ c' = firstn (rfSize f) c /\ length c' = rfSize f /\
    (if deltaForce then length c = rfSize f /\ t = rfTime f /\ t < copyTimeBegin else rfSize f = O \/ sha1 c' = rfSum f).
Proof.
  intros hash sha1 decB decM decF repo delta deltaForce ct f stored dest c' H. unfold restoreFile in H. destruct (deltaStep hash sha1 delta deltaForce ct f dest) as ((r, d), sums) eqn:ED. destruct r.
  - injection H as <-. unfold deltaStep in ED. destruct dest as [(c, t)|]; [|discriminate]. destruct delta; [|discriminate]. destruct (rfZero f); [discriminate|]. cbn [andb negb] in ED. split; [reflexivity|]. split; [reflexivity|]. exists c, t. split; [reflexivity|]. destruct deltaForce.
    + destruct ((length c =? rfSize f)%nat && (t =? rfTime f) && (t <? ct)) eqn:E; [|discriminate]. injection ED as <- <-. apply andb_true_iff in E. destruct E as (E & E3). apply andb_true_iff in E. destruct E as (E1 & E2). apply Nat.eqb_eq in E1. apply Z.eqb_eq in E2. apply Z.ltb_lt in E3.
      rewrite <- E1, firstn_all. auto 6.
    + destruct ((rfSize f <=? length c)%nat || _) eqn:EG; [|discriminate]. set (c1 := if (rfSize f <? length c)%nat then firstn (rfSize f) c else c) in *. assert (E1 : c1 = firstn (rfSize f) c) by (unfold c1; destruct (Nat.ltb_spec (rfSize f) (length c)); [reflexivity|rewrite firstn_all2 by lia; reflexivity]).
      destruct ((rfSize f =? 0)%nat || ((length c1 =? rfSize f)%nat && strEqb (rfSum f) (sha1 c1))) eqn:EP; [|discriminate]. injection ED as <- _. split; [exact E1|]. apply orb_true_iff in EP. destruct EP as [EP|EP].
      * apply Nat.eqb_eq in EP. split; [|auto]. rewrite E1, firstn_length. lia.
      * apply andb_true_iff in EP. destruct EP as (EP1 & EP2). apply Nat.eqb_eq in EP1. split; [exact EP1|]. destruct (strEqb_spec (rfSum f) (sha1 c1)) as [E2|]; [|discriminate]. right. congruence.
  - discriminate.
  - destruct ((rfSize f =? 0)%nat || rfZero f); [discriminate|]. destruct stored; [|discriminate]. revert H. match goal with |- (let* c := ?X in _) = _ -> _ => destruct X as [c|e|]; cbn [bind]; [|discriminate|discriminate] end. destruct (strEqb (rfSum f) (sha1 c)); discriminate.
Qed.
Print Assumptions C44_preserve.
(** C44.  A file that is not preserved is rewritten: a file to be zeroed has the expected number of zeros, an empty file is empty, and the content
    of any other has the expected checksum (otherwise restore fails).  For a file that is not block incremental it is what the repository has,
    whatever was in the destination. *)
Theorem C44_written : forall hash sha1 decB decM decF repo delta deltaForce copyTimeBegin f stored dest res c',
  restoreFile hash sha1 decB decM decF repo delta deltaForce copyTimeBegin f stored dest = Ok (res, c') -> res <> RPreserve ->
  if (rfSize f =? 0)%nat || rfZero f then res = RZero /\ c' = repeat 0 (rfSize f)
  else res = RCopy /\ sha1 c' = rfSum f /\ (rfMapSize f = O -> exists s, stored = Some s /\ decF (match rfLimit f with Some n => firstn n (skipn (rfOffset f) s) | None => skipn (rfOffset f) s end) = Ok c').
Proof.
  intros hash sha1 decB decM decF repo delta deltaForce ct f stored dest res c' H NP. unfold restoreFile in H. destruct (deltaStep hash sha1 delta deltaForce ct f dest) as ((r, d), sums) eqn:ED. destruct r; [congruence|discriminate|].
  destruct ((rfSize f =? 0)%nat || rfZero f) eqn:EZ.
  - injection H as <- <-. split; [reflexivity|]. destruct (rfZero f); [reflexivity|]. rewrite Bool.orb_false_r in EZ. apply Nat.eqb_eq in EZ. now rewrite EZ.
  - destruct stored as [s|]; [|discriminate]. set (data := match rfLimit f with Some n => firstn n (skipn (rfOffset f) s) | None => skipn (rfOffset f) s end) in *. revert H. match goal with |- (let* c := ?X in _) = _ -> _ => destruct X as [c|e|] eqn:EX; cbn [bind]; [|discriminate|discriminate] end.
    destruct (strEqb_spec (rfSum f) (sha1 c)) as [E|]; [|discriminate]. intros H. injection H as <- <-. split; [reflexivity|]. split; [congruence|]. intros M0. rewrite M0 in EX. cbn [negb Nat.eqb] in EX. exists s. auto.
Qed.
Print Assumptions C44_written.
(** C44.  A destination that differs in size, or (without force) in checksum after the cut to the expected size, is never preserved. *)
Theorem C44_mismatch : forall hash sha1 decB decM decF repo delta deltaForce copyTimeBegin f stored c t c',
  (length c < rfSize f)%nat \/ (deltaForce = false /\ rfSize f <> O /\ sha1 (firstn (rfSize f) c) <> rfSum f) \/ (deltaForce = true /\ (length c <> rfSize f \/ t <> rfTime f \/ copyTimeBegin <= t)) ->
  restoreFile hash sha1 decB decM decF repo delta deltaForce copyTimeBegin f stored (Some (c, t)) <> Ok (RPreserve, c').
Proof.
  intros hash sha1 decB decM decF repo delta deltaForce ct f stored c t c' H E. apply C44_preserve in E. destruct E as (_ & _ & c0 & t0 & E0 & E1 & E2 & E3). injection E0 as <- <-. rewrite E1, firstn_length in E2. destruct H as [H|[(-> & H1 & H2)|(-> & H)]].
  - lia.
  - destruct E3 as [E3|E3]; congruence.
  - destruct E3 as (E3 & E4 & E5). lia.
Qed.
Print Assumptions C44_mismatch.

(** Two backups of a file: the second finds the second block changed and a block added.  The restore is over a longer destination that has the
    last block. *)
Definition c26_hash (b : list Z) : list Z := [fold_left (fun a x => 10 * a + x) b 0].
Definition c26_v1 : list Z := [1; 2; 3; 4].
Definition c26_v2 : list Z := [1; 2; 3; 5; 6].
Definition c26_enc (r : Z) (n : nat) (d : list Z) : list Z := 99 :: d.
Definition c26_dec (d : list Z) : res (list Z) := match d with 99 :: d => Ok d | _ => Err EFormat end.
Definition c26_out (prior : option (list item)) (r : Z) (v : list Z) : res (list Z * nat) := incrRun c26_hash (c26_enc r) (c26_enc r) 4 2 r 0 prior 100 (fun _ => (false, 100%nat)) 0 [v].
Definition c26_o1 : list Z := Eval vm_compute in match c26_out None 0 c26_v1 with Ok (o, _) => o | _ => [] end.
Definition c26_n1 : nat := Eval vm_compute in match c26_out None 0 c26_v1 with Ok (_, n) => n | _ => O end.
Definition c26_m1 : list item := Eval vm_compute in match blockMapRead 2 1 (tl (skipn (length c26_o1 - c26_n1) c26_o1)) with Ok (m, _) => m | _ => [] end.
Definition c26_o2 : list Z := Eval vm_compute in match c26_out (Some c26_m1) 1 c26_v2 with Ok (o, _) => o | _ => [] end.
Definition c26_n2 : nat := Eval vm_compute in match c26_out (Some c26_m1) 1 c26_v2 with Ok (_, n) => n | _ => O end.
Definition c26_repo (r bundle : Z) : option (list Z) := if r =? 0 then Some c26_o1 else if r =? 1 then Some c26_o2 else None.
Lemma c26_hist : history c26_hash c26_enc c26_enc c26_dec 2 1 c26_repo 1 c26_v2 (mkLoc 1 0 (length c26_o2 - c26_n2) c26_n2).
Proof.
  assert (NC : noCollision c26_hash 2 c26_v1 c26_v2).
  { intros b1 b2 i x1 x2 B1 B2. rewrite (blocks_unique 2 ltac:(lia) b1 [[1; 2]; [3; 4]] c26_v1 B1), (blocks_unique 2 ltac:(lia) b2 [[1; 2]; [3; 5]; [6]] c26_v2 B2).
    - destruct i as [|[|[|i]]]; cbn; intros E1 E2; try discriminate; injection E1 as <-; injection E2 as <-; vm_compute; intros; congruence.
    - split; [reflexivity|]. intros [|p [|p' [|p'' pre]]] b post E; try (injection E as ? ?; destruct pre; discriminate); inversion E; subst; try (destruct pre; discriminate); cbn; (split; [lia|intros; try lia; congruence]).
    - split; [reflexivity|]. intros [|p [|p' [|p'' pre]]] b post E; try (injection E as ? ?; destruct pre; discriminate); inversion E; subst; try (destruct pre; discriminate); cbn; (split; [lia|intros; try lia; congruence]). }
  assert (Run : forall prior r v o n, (forall k, incrRun c26_hash (c26_enc r) (c26_enc r) 4 2 r 0 prior (8 + k) (fun _ => (false, 100%nat)) 0 [v] = Ok (o, n)) -> backupRun c26_hash c26_enc c26_enc 2 prior r 0 0 v o n).
  { intros prior r v o n H. exists 4%nat, [v], (fun _ => (false, 100%nat)), 8%nat. split; [cbn; now rewrite app_nil_r|]. split; [cbn; lia|]. intros fuel Hf. replace fuel with (8 + (fuel - 8))%nat by lia. apply H. }
  apply (h_next _ _ _ _ _ _ _ 0 c26_v1 (mkLoc 0 0 (length c26_o1 - c26_n1) c26_n1) 1 0 0 c26_v2 c26_o2 c26_n2 c26_m1).
  - apply (h_first _ _ _ _ _ _ _ 0 0 0 c26_v1 c26_o1 c26_n1); [discriminate|unfold sizesOk; vm_compute; intuition congruence|apply Run; intros k; vm_compute; reflexivity|]. exists c26_o1. split; [reflexivity|]. split; [cbn; lia|reflexivity].
  - lia.
  - discriminate.
  - exact NC.
  - exists c26_o1, (skipn (length c26_o1 - c26_n1) c26_o1), (tl (skipn (length c26_o1 - c26_n1) c26_o1)). eexists. split; [reflexivity|]. split; [split; [vm_compute; lia|reflexivity]|]. split; [reflexivity|vm_compute; reflexivity].
  - unfold sizesOk. vm_compute. intuition congruence.
  - apply Run. intros k. vm_compute. reflexivity.
  - discriminate.
  - exists c26_o2. split; [reflexivity|]. split; [cbn; lia|reflexivity].
Qed.
Example C26_nontrivial : history c26_hash c26_enc c26_enc c26_dec 2 1 c26_repo 1 c26_v2 (mkLoc 1 0 (length c26_o2 - c26_n2) c26_n2) /\ (2 < c26_n2)%nat /\
  restoreFile c26_hash (fun d => d) c26_dec c26_dec c26_dec c26_repo true false 0 (mkRf c26_v2 5 0 false c26_n2 2 1 (length c26_o2 - c26_n2) (Some c26_n2)) (c26_repo 1 0) (Some ([7; 7; 3; 5; 8; 8; 8], 3)) = Ok (RCopy, c26_v2).
Proof. split; [exact c26_hist|]. split; [vm_compute; lia|]. vm_compute. reflexivity. Qed.
(** A longer destination that starts with the content is preserved after the cut, one that differs is copied, a wrong repository file fails. *)
Example C44_nontrivial : let run f d := restoreFile c26_hash (fun d => d) c26_dec c26_dec c26_dec c26_repo true f 10 (mkRf [1; 2; 3] 3 5 false 0 2 1 1 (Some 4%nat)) (Some [0; 99; 1; 2; 3; 9]) d in
  run false (Some ([1; 2; 3; 4], 7)) = Ok (RPreserve, [1; 2; 3]) /\ run false (Some ([1; 2; 4], 7)) = Ok (RCopy, [1; 2; 3]) /\ run true (Some ([4; 4; 4], 5)) = Ok (RPreserve, [4; 4; 4]) /\
  run true (Some ([1; 2; 3], 11)) = Ok (RCopy, [1; 2; 3]) /\
  restoreFile c26_hash (fun d => d) c26_dec c26_dec c26_dec c26_repo true false 10 (mkRf [1; 2; 3] 3 5 false 0 2 1 1 (Some 4%nat)) (Some [0; 99; 1; 2; 4; 9]) None = Err EChecksum.
Proof. repeat split; vm_compute; reflexivity. Qed.
