(** Properties of archive-get: C32 (what is found), C33 (the queue), C48 (asynchronous archive-get). *)
From Verif Require Import Base Str ConvertModel NumModel SpoolModel SpoolSpec SpoolProof PushModel PushSpec PushProof LsnModel LsnSpec LsnProof GetModel GetSpec GetProof GetProof2.
From Coq Require Import Permutation Sorted.
Open Scope Z_scope.

(** With every archive listed: missing exactly when no repository has the segment, otherwise all that the repositories have, unless the first
    22 - k characters (k: length of the archive ids) of two checksums differ. *)
Theorem C32_find_exact : forall w listErr cr k f single, seg24 f -> (k <= 22)%nat -> idLength cr k -> cr <> [] ->
  (forall c a, In c cr -> In a (crArchives c) -> listErr f (crIdx c) a = None) ->
  let differ := exists r1 a1 n1 s1 r2 a2 n2 s2, offers w cr f r1 a1 n1 s1 /\ offers w cr f r2 a2 n2 s2 /\ firstn (22 - k) s1 <> firstn (22 - k) s2 in
  (getFind w listErr f single cr = FMissing <-> forall r a n s, ~ offers w cr f r a n s) /\
  (getFind w listErr f single cr = FErr EArchiveDuplicate <-> differ) /\
  (forall e, getFind w listErr f single cr = FErr e -> e = EArchiveDuplicate) /\
  forall l, getFind w listErr f single cr = FMap l -> forall r a n, In (mkGFile (a ++ 47 :: firstn 16 f ++ 47 :: n) r a n) l <-> exists s, offers w cr f r a n s.
Proof.
  intros w listErr cr k f single Hf Hk HL Ne HE differ. pose proof (find_sound w listErr cr k HL Hk f single _ Hf eq_refl) as S1. pose proof (find_complete w listErr cr k HL Hk f single Hf Ne HE) as S2.
  destruct (getFind w listErr f single cr) as [e| |l].
  - subst e. split; [|split; [|split]].
    + split; [discriminate|]. intros H. exfalso. destruct S1 as (r1 & a1 & n1 & s1 & _ & _ & _ & _ & O & _). exact (H _ _ _ _ O).
    + split; [intros _; exact S1|reflexivity].
    + congruence.
    + discriminate.
  - split; [|split; [|split]]; try discriminate.
    + split; auto.
    + split; [discriminate|]. intros (r1 & a1 & n1 & s1 & _ & _ & _ & _ & O & _). elim (S2 _ _ _ _ O).
  - destruct S1 as (N & Snd). destruct S2 as (All & Eq). split; [|split; [|split]]; try discriminate.
    + split; [discriminate|]. intros H. destruct l as [|g l]; [now elim N|]. destruct (Snd g (or_introl eq_refl)) as (_ & s & O). elim (H _ _ _ _ O).
    + split; [discriminate|]. intros (r1 & a1 & n1 & s1 & r2 & a2 & n2 & s2 & O1 & O2 & D). elim D. now apply (Eq r1 a1 n1 s1 r2 a2 n2 s2).
    + intros l' E r a n. injection E as <-. split; [intros H; destruct (Snd _ H) as (_ & s & O); eauto|intros (s & O); now apply (All r a n s)].
Qed.
Print Assumptions C32_find_exact.

(** Whatever fails to be listed: what is found is offered, the duplicate error is true, and the repository error means that every repository failed. *)
Theorem C32_find_sound : forall w listErr cr k f single, seg24 f -> (k <= 22)%nat -> idLength cr k ->
  match getFind w listErr f single cr with
  | FMap l => l <> [] /\ forall g, In g l -> exists sum, offers w cr f (gfRepo g) (gfArchive g) (gfName g) sum
  | FErr EArchiveDuplicate => exists r1 a1 n1 s1 r2 a2 n2 s2, offers w cr f r1 a1 n1 s1 /\ offers w cr f r2 a2 n2 s2 /\ s1 <> s2
  | FErr e => e = ERepoInvalid /\ forall c, In c cr -> exists a x, In a (crArchives c) /\ listErr f (crIdx c) a = Some x
  | FMissing => True
  end.
Proof.
  intros w listErr cr k f single Hf Hk HL. pose proof (find_sound w listErr cr k HL Hk f single _ Hf eq_refl) as S1. destruct (getFind w listErr f single cr) as [e| |l]; [|exact I|].
  - destruct e; try exact S1. destruct S1 as (r1 & a1 & n1 & s1 & r2 & a2 & n2 & s2 & O1 & O2 & N). exists r1, a1, n1, s1, r2, a2, n2, s2. split; [exact O1|]. split; [exact O2|]. congruence.
  - destruct S1 as (N & S1). split; [exact N|]. intros g Hg. destruct (S1 g Hg) as (_ & s & O). eauto.
Qed.
Print Assumptions C32_find_sound.

(** A file that is not a segment (history, backup): all archives that have it, never a duplicate error. *)
Theorem C32_other_files : forall w listErr cr f single, ~ isSegmentName f -> (forall c a, In c cr -> In a (crArchives c) -> listErr f (crIdx c) a = None) -> cr <> [] ->
  match getFind w listErr f single cr with
  | FMap l => l <> [] /\ forall g, In g l <-> exists c a d, In c cr /\ In a (crArchives c) /\ In (f, d) (w (crIdx c) a) /\ g = mkGFile (a ++ 47 :: f) (crIdx c) a f
  | FMissing => forall c a d, In c cr -> In a (crArchives c) -> ~ In (f, d) (w (crIdx c) a)
  | FErr _ => False
  end.
Proof. intros w listErr cr f single N. apply find_other. apply not_true_iff_false. intros H. apply N. now apply walIsSegment_spec. Qed.
Print Assumptions C32_other_files.

(** Several requests: the found ones are the requests before the first one that is missing or fails. *)
Theorem C32_requests : forall w listErr single cr reqs, let '(m, e) := findAll w listErr reqs single cr in
  (length m <= length reqs)%nat /\ map fst m = firstn (length m) reqs /\ (forall q l, In (q, l) m -> getFind w listErr q single cr = FMap l) /\
  match nth_error reqs (length m) with
  | None => e = None
  | Some q => match e with None => getFind w listErr q single cr = FMissing | Some (x, q') => q' = q /\ getFind w listErr q single cr = FErr x end
  end.
Proof. intros. apply findAll_spec. Qed.
Print Assumptions C32_requests.

(** Archive ids that are searched: those of the history with the version and system id of the cluster, the current one or with a directory. *)
Theorem C32_archives : forall version systemId only infos, (forall h, In h infos -> exists p, riPaths h = Ok p) -> forall r a,
  (exists c, In c (fst (cacheRepos version systemId only 0 infos)) /\ crIdx c = r /\ In a (crArchives c)) <-> serves version systemId only infos r a.
Proof. exact cache_serves. Qed.
Print Assumptions C32_archives.

(** archive-get of one segment: the content is one a matching archive has; not found only when no matching archive has the segment. *)
Theorem C32_single : forall w listErr read version systemId invalid label only infos f k,
  seg24 f -> (k <= 22)%nat -> (forall h, In h infos -> exists p, riPaths h = Ok p) ->
  (forall r a, serves version systemId only infos r a -> length a = k) ->
  (forall r a, serves version systemId only infos r a -> listErr f r a = None) ->
  invalid && negb label = false ->
  match getSingle w listErr read (version, systemId, invalid) label only infos f with
  | Ok (Some d) => exists r a name sum, serves version systemId only infos r a /\ has w r a f name sum /\ read (mkGFile (a ++ 47 :: firstn 16 f ++ 47 :: name) r a name) = Ok d
  | Ok None => (exists r a, serves version systemId only infos r a) /\ forall r a name sum, serves version systemId only infos r a -> ~ has w r a f name sum
  | Err ERepoInvalid => forall r a, ~ serves version systemId only infos r a
  | Err EArchiveDuplicate => exists r1 a1 n1 s1 r2 a2 n2 s2, serves version systemId only infos r1 a1 /\ serves version systemId only infos r2 a2 /\ has w r1 a1 f n1 s1 /\ has w r2 a2 f n2 s2 /\ s1 <> s2
  | Err e => e = EFileRead /\ forall r a name sum d, serves version systemId only infos r a -> has w r a f name sum -> read (mkGFile (a ++ 47 :: firstn 16 f ++ 47 :: name) r a name) <> Ok d
  | UB => False
  end.
Proof. intros w listErr read version systemId invalid label only infos f k H1 H2 H3 H4 H5 H6. exact (single_spec w listErr read version systemId invalid label only infos f k _ H1 H2 H3 H4 H5 H6 eq_refl). Qed.
Print Assumptions C32_single.

(** A checkpoint written by restore without backup_label: nothing is returned, whatever the repositories have. *)
Theorem C32_invalid_checkpoint : forall w listErr read version systemId only infos f, getSingle w listErr read (version, systemId, true) false only infos f = Err EFormat.
Proof. reflexivity. Qed.
Print Assumptions C32_invalid_checkpoint.

(** The first file that can be copied is used. *)
Theorem C32_first_readable : forall read l, match getFile read 0 l with
  | Ok (i, d) => exists f, nth_error l i = Some f /\ read f = Ok d /\ forall j f', (j < i)%nat -> nth_error l j = Some f' -> forall d', read f' <> Ok d'
  | Err k => k = EFileRead /\ forall f d, In f l -> read f <> Ok d
  | UB => False
  end.
Proof. intros read l. pose proof (getFile_spec read l 0) as G. destruct (getFile read 0 l) as [(i, d)| |]; [|exact G|exact G]. destruct G as (j & f & -> & H). exists f. exact H. Qed.
Print Assumptions C32_first_readable.

Definition gxSeg : str := repeat 48 23 ++ [49].
Definition gxSum (c : Z) : str := repeat 97 30 ++ repeat c 10.
Definition gxId9 : str := [49;50;45;57].           (* 12-9 *)
Definition gxId10 : str := [49;50;45;49;48].       (* 12-10 *)
Definition gxW (a1 s1 a2 s2 : str) : repos := fun r a =>
  if Nat.eqb r 0 && strEqb a a1 then [(gxSeg ++ 45 :: s1, [1])] else if Nat.eqb r 1 && strEqb a a2 then [(gxSeg ++ 45 :: s2, [2])] else [].
Definition gxCr (a1 a2 : str) : list crepo := [mkCRepo 0 [a1]; mkCRepo 1 [a2]].
Lemma gxSeg24 : seg24 gxSeg. Proof. split; [reflexivity|]. repeat constructor; lia. Qed.
Lemma gxOffer r a s : (r = 0%nat /\ a = gxId9) \/ (r = 1%nat /\ (a = gxId9 \/ a = gxId10)) -> sum40 s -> forall a2 s1 s2, (r = 1%nat -> a = a2 /\ s = s2) -> (r = 0%nat -> s = s1) ->
  offers (gxW gxId9 s1 a2 s2) (gxCr gxId9 a2) gxSeg r a (gxSeg ++ 45 :: s) s.
Proof.
  intros H HS a2 s1 s2 H1 H0. split; [|split; [|split; [exact HS|exists gxSeg, []; split; [exact gxSeg24|]; split; [now left|left; split; [reflexivity|now rewrite app_nil_r]]]]].
  - destruct H as [(-> & ->)|(-> & _)]; [exists (mkCRepo 0 [gxId9]); cbn; auto|]. destruct (H1 eq_refl) as (-> & _). exists (mkCRepo 1 [a2]). cbn. auto.
  - destruct H as [(-> & ->)|(-> & _)]; [rewrite (H0 eq_refl); exists [1]; cbn; auto|]. destruct (H1 eq_refl) as (-> & ->). exists [2]. unfold gxW. cbn. destruct (strEqb_spec a2 a2) as [_|N]; [now left|now elim N].
Qed.
Lemma gxSum40 c : 48 <= c <= 102 -> sum40 (gxSum c). Proof. intros H. split; [reflexivity|]. repeat constructor; lia. Qed.

(** Two repositories with different checksums that differ in their last characters only: no duplicate error, the first one is used. *)
Theorem C32_prefix_refuted : ~ (forall w listErr cr f single, seg24 f -> cr <> [] -> (forall c a, In c cr -> In a (crArchives c) -> listErr f (crIdx c) a = None) ->
  (exists r1 a1 n1 s1 r2 a2 n2 s2, offers w cr f r1 a1 n1 s1 /\ offers w cr f r2 a2 n2 s2 /\ s1 <> s2) -> getFind w listErr f single cr = FErr EArchiveDuplicate).
Proof.
  intros H. specialize (H (gxW gxId9 (gxSum 97) gxId9 (gxSum 98)) (fun _ _ _ => None) (gxCr gxId9 gxId9) gxSeg true gxSeg24 ltac:(discriminate) ltac:(reflexivity)).
  assert (X : getFind (gxW gxId9 (gxSum 97) gxId9 (gxSum 98)) (fun _ _ _ => None) gxSeg true (gxCr gxId9 gxId9) = FErr EArchiveDuplicate); [|vm_compute in X; discriminate].
  apply H. exists 0%nat, gxId9, (gxSeg ++ 45 :: gxSum 97), (gxSum 97), 1%nat, gxId9, (gxSeg ++ 45 :: gxSum 98), (gxSum 98). split; [|split].
  - apply gxOffer; [auto|apply gxSum40; lia|discriminate|auto].
  - apply gxOffer; [auto|apply gxSum40; lia|auto|discriminate].
  - vm_compute. discriminate.
Qed.
Print Assumptions C32_prefix_refuted.

(** Two repositories with the same checksum under archive ids of different length (12-9 and 12-10): a false duplicate error, the segment can not be got. *)
Theorem C32_length_refuted : ~ (forall w listErr cr f single, seg24 f -> getFind w listErr f single cr = FErr EArchiveDuplicate ->
  exists r1 a1 n1 s1 r2 a2 n2 s2, offers w cr f r1 a1 n1 s1 /\ offers w cr f r2 a2 n2 s2 /\ s1 <> s2).
Proof.
  intros H. destruct (H (gxW gxId9 (gxSum 97) gxId10 (gxSum 97)) (fun _ _ _ => None) (gxCr gxId9 gxId10) gxSeg true gxSeg24 ltac:(vm_compute; reflexivity)) as (r1 & a1 & n1 & s1 & r2 & a2 & n2 & s2 & O1 & O2 & N). apply N.
  assert (X : forall r a n s, offers (gxW gxId9 (gxSum 97) gxId10 (gxSum 97)) (gxCr gxId9 gxId10) gxSeg r a n s -> s = gxSum 97).
  { intros r a n s (_ & (d & Hd) & HS & SF). assert (E : n = gxSeg ++ 45 :: gxSum 97). { unfold gxW in Hd. destruct (Nat.eqb r 0 && strEqb a gxId9); [destruct Hd as [E|[]]; now injection E as <- _|]. destruct (Nat.eqb r 1 && strEqb a gxId10); [destruct Hd as [E|[]]; now injection E as <- _|destruct Hd]. }
    subst n. apply (sum_fun gxSeg s (gxSum 97) (gxSeg ++ 45 :: gxSum 97) gxSeg24 HS); [apply gxSum40; lia|exact SF|]. exists gxSeg, []. split; [exact gxSeg24|]. split; [now left|left; split; [reflexivity|now rewrite app_nil_r]]. }
  now rewrite (X _ _ _ _ O1), (X _ _ _ _ O2).
Qed.
Print Assumptions C32_length_refuted.

Example C32_nontrivial :
  idLength (gxCr gxId9 gxId9) 4 /\ offers (gxW gxId9 (gxSum 97) gxId9 (gxSum 97)) (gxCr gxId9 gxId9) gxSeg 1 gxId9 (gxSeg ++ 45 :: gxSum 97) (gxSum 97) /\
  (exists g1 g2, getFind (gxW gxId9 (gxSum 97) gxId9 (gxSum 97)) (fun _ _ _ => None) gxSeg false (gxCr gxId9 gxId9) = FMap [g1; g2]) /\
  getFind (gxW gxId9 (repeat 97 40) gxId9 (repeat 98 40)) (fun _ _ _ => None) gxSeg false (gxCr gxId9 gxId9) = FErr EArchiveDuplicate /\
  (* the second repository has a mismatch in archive.info, the old archive id of the first one has a directory *)
  getSingle (gxW gxId9 (gxSum 97) gxId9 (gxSum 97)) (fun _ _ _ => None) (fun g => Ok [Z.of_nat (gfRepo g)]) (12, 77, false) true None
    [mkRepoInfo (Ok [([49;51;45;49;48], 13, 78); (gxId9, 12, 77)]) (Ok [gxId9]); mkRepoInfo (Ok [(gxId9, 13, 77)]) (Ok [])] gxSeg = Ok (Some [0]) /\
  serves 12 77 None [mkRepoInfo (Ok [([49;51;45;49;48], 13, 78); (gxId9, 12, 77)]) (Ok [gxId9]); mkRepoInfo (Ok [(gxId9, 13, 77)]) (Ok [])] 0 gxId9.
Proof.
  split; [intros c a [<-|[<-|[]]] [<-|[]]; reflexivity|]. split; [apply gxOffer; [auto|apply gxSum40; lia|auto|discriminate]|]. split; [eexists; eexists; vm_compute; reflexivity|]. split; [vm_compute; reflexivity|]. split; [vm_compute; reflexivity|].
  split; [now left|]. eexists _, _, _, 1%nat. repeat split. right. now left.
Qed.

(** Queue preparation: the segments to get are, in order, the wanted ones that are not there; a file is kept exactly when it is wanted or when it
    is the ok file of a segment that was there. *)
Theorem C33_queue_exact : forall spool seg (found : bool) queueSize size tl b, isDir spool -> goodTimeline tl -> goodSize size -> 0 <= b -> segmentIs tl size b seg ->
  b + (queueCount queueSize size + 1) * size < 2 ^ 64 ->
  exists spool' need, queueNeed spool seg found queueSize size = Ok (spool', need) /\ isDir spool' /\ StronglySorted sle need /\
    (forall x, In x need <-> oneOf tl size (if found then b + size else b) (queueCount queueSize size) x /\ ~ In x (map fst spool)) /\
    forall f, In f spool' <-> In f spool /\ (oneOf tl size (if found then b + size else b) (queueCount queueSize size) (fst f) \/
                                            exists x, fst f = x ++ [46;111;107] /\ In x (map fst spool)).
Proof. exact queue_exact. Qed.
Print Assumptions C33_queue_exact.

Definition gxAt (k : Z) : str := lsnToWalSegment 1 (k * 2 ^ 24) (2 ^ 24).
(** A segment that is not wanted any more is removed, but its ok file stays.  With archive-missing-retry=n the segment, when it is requested
    (recovery restarted), is then reported as not found although the repository has it. *)
Theorem C33_stale_ok_refuted : ~ (forall spool seg found queueSize size spool' need, isDir spool -> queueNeed spool seg found queueSize size = Ok (spool', need) ->
  forall x, hasOk spool' x -> In x (map fst spool')).
Proof.
  intros H. specialize (H [(gxAt 1, [1]); (gxAt 1 ++ extOk, [48;10;119])] (gxAt 5) true (2 ^ 27) (2 ^ 24)).
  destruct (queueNeed [(gxAt 1, [1]); (gxAt 1 ++ extOk, [48;10;119])] (gxAt 5) true (2 ^ 27) (2 ^ 24)) as [(d, need)| |] eqn:E; [|vm_compute in E; discriminate..].
  assert (HD : isDir [(gxAt 1, [1]); (gxAt 1 ++ extOk, [48;10;119])]) by (repeat constructor; cbn; [intros [X|[]]; vm_compute in X; discriminate|tauto]).
  specialize (H d need HD eq_refl (gxAt 1)). vm_compute in E. injection E as <- <-. specialize (H ltac:(exists [48;10;119]; vm_compute; auto)). vm_compute in H. destruct H as [H|[]]. discriminate.
Qed.
Print Assumptions C33_stale_ok_refuted.
Example C33_stale_not_found : match queueNeed [(gxAt 1, [1]); (gxAt 1 ++ extOk, [48;10;119])] (gxAt 5) true (2 ^ 27) (2 ^ 24) with
  | Ok (d, _) => fst (getLoop (gxAt 1) false (2 ^ 27) (2 ^ 24) (fun _ d => d) (fun _ => true) (fun _ => true) (fun _ => true) (fun _ => false) (fun _ => Ok (Some [1])) 9 0 true false d)
  | _ => GTimeout end = NotFoundOk.
Proof. vm_compute. reflexivity. Qed.
Example C33_nontrivial : segmentIs 1 (2 ^ 24) (5 * 2 ^ 24) (gxAt 5) /\ queueCount (2 ^ 26) (2 ^ 24) = 4 /\
  match queueNeed [(gxAt 7, [1]); (gxAt 5, []); (gxAt 8 ++ extError, []); (gxAt 7 ++ extOk, []); (gxAt 9 ++ extOk, [])] (gxAt 5) true (2 ^ 26) (2 ^ 24) with
  | Ok (d, need) => need = [gxAt 6; gxAt 8; gxAt 9] /\ map fst d = [gxAt 7; gxAt 7 ++ extOk]
  | _ => False end.
Proof. split; [apply segment_exact; [unfold goodTimeline; lia|split; [lia|exists 256; reflexivity]|unfold two64; lia]|]. split; [vm_compute; reflexivity|]. vm_compute. split; reflexivity. Qed.

(** The waiting command.  [sees .. i e d]: iteration i found the spool directory d, left as e by the iteration before. *)
Section Loop.
  Variables (seg : str) (missingRetry : bool) (queueMax size : Z) (other : nat -> dir -> dir) (lock own more full : nat -> bool) (sync : nat -> res (option data)).
  Variables (fuel n0 : nat) (d0 d' : dir).
  Notation loop o := (getLoop seg missingRetry queueMax size other lock own more full sync fuel n0 true false d0 = (o, d')).

  (** Content comes from the spool file of the segment, which is removed. *)
  Theorem C48_from_spool : forall c, loop (GotSpool c) -> exists i e d, sees other n0 d0 i e d /\ dirGet d seg = Some c /\ dirGet d' seg = None.
  Proof. intros c H. refine (loop_outcome seg missingRetry queueMax size other lock own more full sync n0 d0 fuel n0 true false d0 _ d' _ _ _ _ H); [tauto|lia|constructor|discriminate]. Qed.
  (** Not found without asking the repositories: another process left an ok file and no segment; with archive-missing-retry=y it did so after the
      command began to wait. *)
  Theorem C48_not_found_spool : loop NotFoundOk -> exists i e d, sees other n0 d0 i e d /\ dirGet d seg = None /\ dirGet d (seg ++ [46;111;107]) <> None /\ dirGet d' (seg ++ [46;111;107]) = None /\
    (missingRetry = true -> dirGet e (seg ++ [46;111;107]) = None /\ (n0 < i)%nat).
  Proof. intros H. refine (loop_outcome seg missingRetry queueMax size other lock own more full sync n0 d0 fuel n0 true false d0 _ d' _ _ _ _ H); [tauto|lia|constructor|discriminate]. Qed.
  (** The command got the segment itself (no asynchronous process runs): its result. *)
  Theorem C48_sync : forall r, loop (match r with Some c => GotSync c | None => NotFoundSync end) -> exists i e d, sees other n0 d0 i e d /\ (n0 < i)%nat /\ dirGet d seg = None /\ own i = false /\ sync i = Ok r.
  Proof. intros r H. destruct r as [c|]; refine (loop_outcome seg missingRetry queueMax size other lock own more full sync n0 d0 fuel n0 true false d0 _ d' _ _ _ _ H); solve [tauto|lia|constructor|discriminate]. Qed.
  (** A thrown error was written by the asynchronous process for the segment, or for all. Errors there before the first iteration are not thrown. *)
  Theorem C48_throw : forall code msg, loop (GThrow code msg) -> exists i e d, sees other n0 d0 i e d /\ (n0 < i)%nat /\ dirGet d (seg ++ [46;111;107]) = None /\
    exists content, (dirGet d (seg ++ [46;101;114;114;111;114]) = Some content \/
                     dirGet d (seg ++ [46;101;114;114;111;114]) = None /\ dirGet d [103;108;111;98;97;108;46;101;114;114;111;114] = Some content) /\ statusContent content = Ok (code, msg).
  Proof. intros code msg H. refine (loop_outcome seg missingRetry queueMax size other lock own more full sync n0 d0 fuel n0 true false d0 _ d' _ _ _ _ H); [tauto|lia|constructor|discriminate]. Qed.
End Loop.
Print Assumptions C48_from_spool.
Print Assumptions C48_not_found_spool.
Print Assumptions C48_sync.
Print Assumptions C48_throw.

(** A segment that is in the spool is returned at once. *)
Theorem C48_found_first : forall seg missingRetry queueMax size other lock own more full sync fuel n0 d0 c tl b,
  isDir (other n0 d0) -> goodTimeline tl -> goodSize size -> 0 <= b -> segmentIs tl size b seg -> b + (queueCount queueMax size + 1) * size < 2 ^ 64 ->
  dirGet (other n0 d0) seg = Some c -> dirGet (other n0 d0) (seg ++ extOk) = None ->
  (forall content, dirGet (other n0 d0) (seg ++ extError) = Some content \/ dirGet (other n0 d0) (statusGlobal ++ extError) = Some content -> exists r, statusContent content = Ok r) ->
  fst (getLoop seg missingRetry queueMax size other lock own more full sync (S fuel) n0 true false d0) = GotSpool c.
Proof.
  intros seg missingRetry queueMax size other lock own more full sync fuel n0 d0 c tl b HD Ht Hs Hb Hseg Lim HG HO HE. apply loop_found; auto.
  destruct (queue_exact (dirRemove (other n0 d0) seg) seg true queueMax size tl b (dirRemove_isDir _ _ HD) Ht Hs Hb Hseg Lim) as (d & need & E & _). eauto.
Qed.
Print Assumptions C48_found_first.
(** A segment known to be missing is reported at once without archive-missing-retry. *)
Theorem C48_missing_first : forall seg queueMax size other lock own more full sync fuel n0 d0,
  dirGet (other n0 d0) seg = None -> dirGet (other n0 d0) (seg ++ extOk) = Some [] -> fst (getLoop seg false queueMax size other lock own more full sync (S fuel) n0 true false d0) = NotFoundOk.
Proof. intros. now apply loop_missing. Qed.
Print Assumptions C48_missing_first.

(** In later iterations it is reported with archive-missing-retry as well. *)
Theorem C48_missing_later : forall seg missingRetry queueMax size other lock own more full sync fuel n forked e,
  dirGet (other n e) seg = None -> dirGet (other n e) (seg ++ extOk) = Some [] -> fst (getLoop seg missingRetry queueMax size other lock own more full sync (S fuel) n false forked e) = NotFoundOk.
Proof. intros. now apply loop_missing_later. Qed.
Print Assumptions C48_missing_later.

(** The asynchronous process: for each segment the content or an error file, for the first one that is missing an ok file without the segment, the
    error of the check for its segment or for all; nothing else is changed. *)
Theorem C48_async : forall job codeOf message c order warns warnList gc gm (reqs : list str) d,
  NoDup reqs -> Forall (fun q => length q = 24%nat) reqs -> Permutation order (ckMap c) -> Permutation (map fst (ckMap c)) (firstn (length (ckMap c)) reqs) ->
  (forall k, codeOf k <> 0) -> (forall q l code msg, In (q, l) (ckMap c) -> job q l = inr (code, msg) -> code <> 0) ->
  (forall k q, ckError c = Some (k, Some q) -> nth_error reqs (length (ckMap c)) = Some q) ->
  exists d', getAsync job codeOf message (Ok c) order warns warnList gc gm reqs d = Ok d' /\
    (forall q l content fw, In (q, l) (ckMap c) -> job q l = inl (content, fw) -> dirGet d' q = Some content /\ dirGet d' (q ++ extError) = dirGet d (q ++ extError)) /\
    (forall q l code msg, In (q, l) (ckMap c) -> job q l = inr (code, msg) -> dirGet d' q = dirGet d q /\ exists t, dirGet d' (q ++ extError) = Some (cvtIntToZ code ++ 10 :: msg ++ t)) /\
    (forall q, ckError c = None -> nth_error reqs (length (ckMap c)) = Some q -> dirGet d' q = dirGet d q /\ dirGet d' (q ++ extOk) <> None) /\
    (forall k q, ckError c = Some (k, q) -> exists t, dirGet d' (match q with Some q => q | None => statusGlobal end ++ extError) = Some (cvtIntToZ (codeOf k) ++ 10 :: message ++ t)) /\
    forall x, dirGet d' x <> dirGet d x -> x = statusGlobal ++ extError \/ exists q, In q (firstn (S (length (ckMap c))) reqs) /\ touches q x.
Proof. exact async_spec. Qed.
Print Assumptions C48_async.

(** The check gives what [C48_async] asks for. *)
Theorem C48_check : forall w listErr control label only infos reqs c, getCheck w listErr control label only infos reqs = Ok c ->
  Permutation (map fst (ckMap c)) (firstn (length (ckMap c)) reqs) /\ (forall k q, ckError c = Some (k, Some q) -> nth_error reqs (length (ckMap c)) = Some q).
Proof.
  intros w listErr ((v, s), inv) label only infos reqs c H. unfold getCheck in H. destruct (inv && negb label); [discriminate|]. destruct (cacheRepos v s only 0 infos) as (cr, warns). destruct cr as [|c0 cr]; [injection H as <-; cbn; split; [constructor|discriminate]|].
  pose proof (findAll_spec w listErr (length reqs =? 1)%nat (c0 :: cr) reqs) as F. destruct (findAll w listErr reqs (length reqs =? 1)%nat (c0 :: cr)) as (m, e). injection H as <-. cbn [ckMap ckError]. destruct F as (F1 & F2 & F3 & F4).
  assert (PM : Permutation (mapSort m) m) by apply sortBy_perm. rewrite (Permutation_length PM). split.
  - rewrite <- F2. now apply Permutation_map.
  - intros k q E. destruct e as [(x, q')|]; [|discriminate]. injection E as -> ->. destruct (nth_error reqs (length m)) as [q0|]; [destruct F4 as (-> & _); reflexivity|discriminate].
Qed.
Print Assumptions C48_check.

Example C48_nontrivial :
  (* the asynchronous process runs between the first and the second iteration *)
  (let other := fun n d => match n with 1%nat => match getAsync (fun _ _ => inl ([7], [])) (fun _ => 25) [65] (Ok (mkCheck [(gxAt 5, [])] None [])) [(gxAt 5, [])] (fun _ => []) [] 25 [65] [gxAt 5; gxAt 6] d with Ok d => d | _ => [] end | _ => d end in
   let '(o, d) := getLoop (gxAt 5) true (2 ^ 26) (2 ^ 24) other (fun _ => true) (fun _ => true) (fun _ => true) (fun _ => false) (fun _ => Ok None) 9 0 true false [(gxAt 5 ++ extOk, [])] in
   o = GotSpool [7] /\ d = [(gxAt 6 ++ extOk, [])]) /\
  (* an old error is not thrown, a new one is *)
  fst (getLoop (gxAt 5) true (2 ^ 26) (2 ^ 24) (fun n d => match n with 1%nat => [(gxAt 5 ++ extError, [50;53;10;66])] | _ => d end) (fun _ => true) (fun _ => true) (fun _ => true) (fun _ => false) (fun _ => Ok None) 9 0 true false
    [(statusGlobal ++ extError, [50;53;10;65])]) = GThrow 25 [66] /\
  (* no process can be started: the repositories are asked *)
  fst (getLoop (gxAt 5) true (2 ^ 26) (2 ^ 24) (fun _ d => d) (fun _ => false) (fun _ => false) (fun _ => true) (fun _ => false) (fun n => if Nat.eqb n 1 then Ok (Some [3]) else Ok None) 9 0 true false []) = GotSync [3].
Proof. vm_compute. repeat split. Qed.
