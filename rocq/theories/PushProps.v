(** Properties C29 and C30: archive-push.  [sha1hex] is any function giving 40 hex characters, [encrypt] any function of the repository and the
    content. *)
From Verif Require Import Base Str ConvertModel NumModel SpoolModel SpoolSpec SpoolProof PushModel PushSpec PushProof PushProof2 PushProof3.
Open Scope Z_scope.

Definition knownExt (a : pushArgs) : Prop := isExt (match paExt a with Some x => x | None => [] end).

(** C29.  When a repository holds a file of the segment with another checksum the push fails, whatever the state and failures. *)
Theorem C29_different_never_ok : forall sha1hex encrypt, (forall d, sum40 (sha1hex d)) -> forall e w a r sum name c,
  knownExt a -> isSegmentName (paFile a) -> In r (paRepos a) -> sum40 sum -> segmentFile (paFile a) sum name -> holds w r name c -> sum <> sha1hex (paWal a) ->
  forall x, snd (archivePushFile sha1hex encrypt e w a) <> Ok x.
Proof. intros sha enc Hs e w a r sum name c X S Hr S40 Sf Hh Hd. eapply push_different; eauto. Qed.
Print Assumptions C29_different_never_ok.

(** C29.  When the one file of the segment in a repository that can be listed has another checksum, nothing is written to any repository. *)
Theorem C29_different_nothing_written : forall sha1hex encrypt e w a r sum name,
  isSegmentName (paFile a) -> In r (paRepos a) -> enList e (rdIdx r) = None -> sum40 sum -> segmentFile (paFile a) sum name -> onlyFile w r (paFile a) name -> sum <> sha1hex (paWal a) ->
  fst (archivePushFile sha1hex encrypt e w a) = w /\ forall x, snd (archivePushFile sha1hex encrypt e w a) <> Ok x.
Proof.
  intros sha enc e w a r sum name S Hr Hl S40 Sf Ho Hd.
  destruct (push_different_unique sha enc e w a r sum name S Hr Hl S40 Sf Ho Hd) as (H1 & k & H2). split; [exact H1|]. intros x. destruct H2; congruence.
Qed.
Print Assumptions C29_different_nothing_written.

(** C29.  A repository holding a file of the segment, with whatever checksum, is left as it was, and so is every repository not pushed to. *)
Theorem C29_existing_unchanged : forall sha1hex encrypt, (forall d, sum40 (sha1hex d)) -> forall e w a, knownExt a ->
  (isSegmentName (paFile a) -> forall r sum name c, sum40 sum -> segmentFile (paFile a) sum name -> holds w r name c ->
     fst (archivePushFile sha1hex encrypt e w a) (rdIdx r) (rdArchiveId r) = w (rdIdx r) (rdArchiveId r)) /\
  (forall i aid, ~ In (mkRepoData i aid) (paRepos a) -> fst (archivePushFile sha1hex encrypt e w a) i aid = w i aid).
Proof.
  intros sha enc Hs e w a X. destruct (archivePushFile sha enc e w a) as [w' r0] eqn:E. cbn [fst]. destruct (push_effect sha enc Hs e w a w' r0 X E) as (_ & _ & P). split.
  - intros S r sum name c S40 Sf Hh. apply P. intros rd _ (E1 & E2). split; [exact S|]. unfold needsCopy.
    assert (Hh' : holds w rd name c) by (unfold holds in *; congruence).
    destruct (different_find e w rd (paFile a) sum name c S S40 Sf Hh') as [(k & Y)|Y]; now rewrite Y.
  - intros i aid H. apply P. intros rd Hrd (E1 & E2). exfalso. apply H. destruct rd; cbn in *; subst. exact Hrd.
Qed.
Print Assumptions C29_existing_unchanged.

(** C29.  Pushing a segment never removes or changes a file, however it ends.  All it may add is the complete segment (encrypted for the
    repository) under a name with its checksum, in repositories it is pushed to. *)
Theorem C29_only_adds : forall sha1hex encrypt, (forall d, sum40 (sha1hex d)) -> forall e w a, knownExt a -> isSegmentName (paFile a) -> forall i aid f,
  let w' := fst (archivePushFile sha1hex encrypt e w a) in
  (In f (w i aid) -> In f (w' i aid)) /\
  (In f (w' i aid) -> In f (w i aid) \/
    (In (mkRepoData i aid) (paRepos a) /\ segmentFile (paFile a) (sha1hex (paWal a)) (fst f) /\ snd f = encrypt i (concat (paChunks a)))).
Proof.
  intros sha enc Hs e w a X S i aid f. destruct (archivePushFile sha enc e w a) as [w' r0] eqn:E. cbn [fst]. destruct (push_effect sha enc Hs e w a w' r0 X E) as (P & Q & _). split.
  - intros H. destruct (Q i aid f H) as [K|(K & _)]; [exact K|contradiction].
  - intros H. destruct (P i aid f H) as [K|(-> & rd & K1 & (K2 & K3))]; [now left|right]. split; [destruct rd; cbn in *; now subst|]. split; [now apply dest_segment|reflexivity].
Qed.
Print Assumptions C29_only_adds.

(** C29.  When every repository holds exactly this segment with this content already, the push succeeds and changes nothing. *)
Theorem C29_same_ok : forall sha1hex encrypt, (forall d, sum40 (sha1hex d)) -> forall e w a,
  isSegmentName (paFile a) -> paRepos a <> [] -> paErrors a = [] -> paHeaderCheck a = false \/ paHeader a = Ok (paVersion a, paSystemId a) ->
  (forall r, In r (paRepos a) -> enList e (rdIdx r) = None /\ exists name, segmentFile (paFile a) (sha1hex (paWal a)) name /\ onlyFile w r (paFile a) name) ->
  exists warns, archivePushFile sha1hex encrypt e w a = (w, Ok warns).
Proof. intros sha enc Hs e w a S N E H A. now apply push_same. Qed.
Print Assumptions C29_same_ok.

(** C29.  A WAL segment of another cluster or version is refused and nothing is written. *)
Theorem C29_wrong_cluster : forall sha1hex encrypt e w a v s, isSegmentName (paFile a) -> paHeaderCheck a = true -> paHeader a = Ok (v, s) -> (v, s) <> (paVersion a, paSystemId a) ->
  fst (archivePushFile sha1hex encrypt e w a) = w /\ forall x, snd (archivePushFile sha1hex encrypt e w a) <> Ok x.
Proof.
  intros sha enc e w a v s S H1 H2 H3. unfold archivePushFile. destruct (match paRepos a with [] => true | _ => false end); [now split|].
  rewrite (proj2 (walIsSegment_spec _) S), H1, H2. cbn [andb bind]. destruct (Z.eqb_spec v (paVersion a)) as [->|]; [destruct (Z.eqb_spec s (paSystemId a)) as [->|]; [congruence|]|]; now split.
Qed.
Print Assumptions C29_wrong_cluster.

(** C30.  When a push succeeds there were no earlier errors and every repository holds the file: one with the complete content just written, or
    for segments one that was there before, with the checksum of the WAL in its name. *)
Theorem C30_ok : forall sha1hex encrypt, (forall d, sum40 (sha1hex d)) -> forall e w a w' warns, knownExt a -> archivePushFile sha1hex encrypt e w a = (w', Ok warns) ->
  paErrors a = [] /\ paRepos a <> [] /\ forall r, In r (paRepos a) ->
    (exists name c, holds w' r name c /\ (c = encrypt (rdIdx r) (concat (paChunks a)) \/ (isSegmentName (paFile a) /\ holds w r name c)) /\
       (isSegmentName (paFile a) -> segmentFile (paFile a) (sha1hex (paWal a)) name) /\ (~ isSegmentName (paFile a) -> name = paFile a)).
Proof.
  intros sha enc Hs e w a w' warns X H. destruct (push_ok sha enc Hs e w a w' warns X H) as (P & N & A). split; [exact P|]. split; [exact N|]. intros r Hr.
  destruct (A r Hr) as (name & c & Hh & [(-> & ->)|(S & Hw & Sf)]); exists name || exists (destName sha a); eexists; (split; [exact Hh|]).
  - split; [now left|]. split; [now apply dest_segment|]. intros S. unfold destName. destruct (walIsSegment (paFile a)) eqn:Q; [apply walIsSegment_spec in Q; contradiction|reflexivity].
  - split; [right; auto|]. split; [auto|contradiction].
Qed.
Print Assumptions C30_ok.

(** C30.  The repositories a push works on are exactly those whose archive.info could be loaded and has the version and system id used, which
    are those of pg_control if given and else those of the first repository; every other repository is an error. *)
Theorem C30_check : forall pg infos v s l errs, archivePushCheck pg infos = Ok (v, s, l, errs) ->
  l <> [] /\ (forall p, pg = Some p -> p = (v, s)) /\
  (pg = None -> forall aid v1 s1, nth_error infos 0 = Some (Ok (aid, v1, s1)) -> v = v1 /\ s = s1) /\
  (forall r, In r l <-> nth_error infos (rdIdx r) = Some (Ok (rdArchiveId r, v, s))) /\
  (forall j, In j (map fst errs) <-> (j < length infos)%nat /\ forall aid, nth_error infos j <> Some (Ok (aid, v, s))).
Proof. exact check_spec. Qed.
Print Assumptions C30_check.

(** C30.  The synchronous command: success means that the file is in every configured repository, or that it was dropped and the ready files
    exceed the maximum (then nothing is written). *)
Theorem C30_sync : forall sha1hex encrypt, (forall d, sum40 (sha1hex d)) -> forall e w c a w' x, knownExt a -> cmdPushSync sha1hex encrypt e w c a = (w', Ok x) ->
  match x with
  | Some _ => forall i, (i < length (pcInfos c))%nat -> exists aid v s, nth_error (pcInfos c) i = Some (Ok (aid, v, s)) /\ archived w' (mkRepoData i aid) (paFile a) (sha1hex (paWal a)) /\
                (forall p, pcPg c = Some p -> p = (v, s))
  | None => w' = w /\ exists q, pcQueueMax c = Some q /\ q < (pcSize c * Z.of_nat (length (pushReadyList (pcReady c)))) mod 2 ^ 64
  end.
Proof.
  intros sha enc Hs e w c a w' x X H. unfold cmdPushSync in H.
  destruct (match pcQueueMax c with Some q => _ | None => _ end) eqn:D.
  - injection H as <- <-. split; [reflexivity|]. destruct (pcQueueMax c) as [q|]; [|discriminate]. exists q. split; [reflexivity|]. unfold pushDrop in D. apply Z.ltb_lt in D.
    destruct (pushReadyList (pcReady c)) as [|y l]; [|exact D]. cbn [length]. now rewrite Z.mul_0_r.
  - destruct (archivePushCheck (pcPg c) (pcInfos c)) as [[[[v s] l] errs]| |] eqn:C; [|discriminate..]. destruct (archivePushFile sha enc e w (withCheck a (v, s, l, errs))) as [w1 r] eqn:P.
    destruct r as [warns| |]; cbn [bind] in H; [|discriminate..]. injection H as <- <-. assert (X' : argsOk (withCheck a (v, s, l, errs))) by exact X.
    destruct (push_ok sha enc Hs _ _ _ _ _ X' P) as (Ee & _). cbn in Ee. subst errs. intros i Hi. destruct (check_all _ _ _ _ _ C i Hi) as (aid & Hin & Hn). exists aid, v, s. split; [exact Hn|]. split.
    + exact (push_ok_archived sha enc Hs _ _ _ _ _ X' P (mkRepoData i aid) Hin).
    + apply (check_spec _ _ _ _ _ _ C).
Qed.
Print Assumptions C30_sync.

(** C30.  The asynchronous command: start with a spool without ok files and let runs, completed jobs, failures, interrupted runs and foreground
    commands interleave in any way.  If the foreground then reports success for a WAL file, it was dropped (with a warning) or it is in every one
    of the [n] repositories, segments with the checksum of the WAL. *)
Theorem C30_async : forall sha1hex encrypt pgWal, (forall d, sum40 (sha1hex d)) -> forall n s0 s f throwOnError warnOnOk x,
  syJobs s0 = [] -> (forall g, ~ In (g ++ [46;111;107]) (map fst (sySpool s0))) -> sysReach sha1hex encrypt pgWal n s0 s ->
  asyncStatus (sySpool s) f throwOnError warnOnOk = Ok (StTrue x) ->
  In f (syDropped s) \/ forall i, (i < n)%nat -> exists aid, archived (syRepos s) (mkRepoData i aid) f (sha1hex (pgWal f)).
Proof. intros sha enc pgw Hs n s0 s f t wo x. now apply async_sound. Qed.
Print Assumptions C30_async.

(** C30.  Without pg-path a repository is not pushed to just because an earlier one is broken fails: when the first repository cannot be loaded
    the others are compared with version and system id zero, so the push is refused everywhere. *)
Theorem C30_first_repo_refuted : exists infos aid v s, nth_error infos 1 = Some (Ok (aid, v, s)) /\ 0 < v /\ 0 < s /\ length infos = 2%nat /\
  archivePushCheck None infos = Err ERepoInvalid /\ archivePushCheck (Some (v, s)) infos = Ok (v, s, [mkRepoData 1 aid], [(0%nat, EFileMissing)]).
Proof. exists [Err EFileMissing; Ok ([49], 15, 77)], [49], 15, 77. repeat split. Qed.
Print Assumptions C30_first_repo_refuted.

(** Two repositories; WAL content [1] has checksum aa.., anything else bb... *)
Definition exSha (d : data) : str := if strEqb d [1] then repeat 97 40 else repeat 98 40.
Lemma exSha_ok d : sum40 (exSha d).
Proof. unfold exSha, sum40. destruct (strEqb d [1]); split; try reflexivity; apply Forall_forall; intros x H; apply repeat_spec in H; subst; lia. Qed.
Definition exEnv : env := mkEnv (fun _ => None) (fun _ => None) (fun _ _ => None) (fun _ => ClOk).
Definition exSeg : str := repeat 48 24.
Definition exArgs (d : data) : pushArgs := mkPushArgs exSeg d (Ok (15, 77)) true true 15 77 (Some [46;103;122]) [mkRepoData 0 [49]; mkRepoData 1 [50]] [] [d] None.
Definition exRepo (name : str) : repos := fun i a => if Nat.eqb i 1 && strEqb a [50] then [(name, [1])] else [].
Definition exName : str := exSeg ++ 45 :: repeat 97 40 ++ [46;103;122].

Example C29_nontrivial :
  (* the second repository has the segment with the same content: only the first is written *)
  (let '(w', r) := archivePushFile exSha (fun _ d => d) exEnv (exRepo exName) (exArgs [1]) in
   r = Ok [1%nat] /\ w' 0%nat [49] = [(exName, [1])] /\ w' 1%nat [50] = [(exName, [1])]) /\
  (* with other content: nothing is written although the first could be *)
  (let '(w', r) := archivePushFile exSha (fun _ d => d) exEnv (exRepo exName) (exArgs [2]) in r = Err EArchiveDuplicate /\ w' 0%nat [49] = []) /\
  isSegmentName exSeg /\ knownExt (exArgs [1]) /\ segmentFile exSeg (exSha [1]) exName.
Proof.
  split; [vm_compute; auto|]. split; [vm_compute; auto|]. assert (S : seg24 exSeg) by (split; [reflexivity|apply Forall_forall; intros x H; apply repeat_spec in H; subst; lia]).
  split; [exists exSeg; auto|]. split; [right; left; reflexivity|]. exists exSeg, [46;103;122]. split; [exact S|]. split; [right; left; reflexivity|]. left. split; reflexivity.
Qed.
Example C29_only_file : onlyFile (exRepo exName) (mkRepoData 1 [50]) exSeg exName.
Proof.
  split; [repeat constructor; cbn; tauto|]. split; [exists [1]; now left|]. intros sum n c _ _ H. cbn in H. destruct H as [H|[]]. now injection H as <- _.
Qed.
(** One repository failing to be written makes the push fail although the other one has the segment now. *)
Example C30_nontrivial :
  (let '(w', r) := archivePushFile exSha (fun _ d => d) (mkEnv (fun _ => None) (fun _ => None) (fun r k => if Nat.eqb r 0 then Some EFileWrite else None) (fun _ => ClOk)) (fun _ _ => []) (exArgs [1]) in
   r = Err ECommand /\ w' 0%nat [49] = [] /\ w' 1%nat [50] = [(exName, [1])]) /\
  (let '(w', r) := cmdPushSync exSha (fun _ d => d) exEnv (fun _ _ => []) (mkPushCmd (Some 100) [exSeg ++ extReady] 50 (Some (15, 77)) [Ok ([49], 15, 77); Ok ([50], 15, 77)]) (exArgs [1]) in
   r = Ok (Some []) /\ w' 0%nat [49] = [(exName, [1])] /\ w' 1%nat [50] = [(exName, [1])]).
Proof. split; vm_compute; auto. Qed.
(** A run of the asynchronous system that ends with success. *)
Definition exSys0 : sys := mkSys (fun _ _ => []) [] [] (0, 0, [], []) [].
Definition exRun : runIn := mkRunIn [exSeg ++ extReady] [exSeg ++ extReady] 50 16 None 100 (15, 77) [Ok ([49], 15, 77); Ok ([50], 15, 77)] [] 25 [65].
Example C30_async_nontrivial : exists s1 s2, sysReach exSha (fun _ d => d) (fun _ => [1]) 2 exSys0 s2 /\ asyncBegin exSys0 exRun = Ok s1 /\ syJobs s1 = [exSeg] /\
  asyncStatus (sySpool s1) exSeg false true = Ok StFalse /\ asyncStatus (sySpool s2) exSeg false true = Ok (StTrue None) /\ syDropped s2 = [].
Proof.
  destruct (asyncBegin exSys0 exRun) as [s1| |] eqn:E1; [|vm_compute in E1; discriminate..].
  destruct (asyncJob exSha (fun _ d => d) s1 exEnv exSeg (exArgs [1]) [] 25 [65]) as [s2| |] eqn:E2; [|vm_compute in E1; injection E1 as <-; vm_compute in E2; discriminate..].
  exists s1, s2. assert (J : syJobs s1 = [exSeg]) by (vm_compute in E1; injection E1 as <-; reflexivity). split.
  - eapply sr_step; [eapply sr_step; [apply sr_init|eapply st_begin; [|exact E1]; reflexivity]|]. apply (st_job _ _ _ 2 s1 s2 exEnv exSeg (exArgs [1]) [] 25 [65]); [rewrite J; now left|reflexivity|reflexivity|reflexivity|exact E2].
  - split; [reflexivity|]. split; [exact J|]. vm_compute in E1. injection E1 as <-. vm_compute in E2. injection E2 as <-. vm_compute. auto.
Qed.
