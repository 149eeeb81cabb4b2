(** C66 WAL and C67 backups in the verify command. *)
From Coq Require Import String Sorting.Permutation.
From Verif Require Import Base Str NumModel LsnModel RegNameModel EncodeModel ResumeModel VerifyModel VerifySpec VerifyProof VerifyProof2 VerifyProof3 VerifyProof4 VerifyProof6 VerifyProof7 VerifyProof8 VerifyProof9.
Open Scope Z_scope.
Open Scope list_scope.

(** C66: for any storage and any order of the results, the WAL of every archive id is reported as it is: all files are counted, all but duplicate segments are checked once,
    the ranges are the longest runs of segments in sequence, and the files that fail are in the range of their segment *)
Theorem C66_archive : forall w check d0 d, good w d0 -> completed w check d0 d ->
  map vaId (vdArch d) = vdIds d0 /\ forall a, In a (vdArch d) -> archIs w (vdFilter d0) (walResults w (vdFilter d0) check (vdIds d0)) (strLstSortAsc (vwPaths w (vaId a))) a.
Proof. intros w check d0 d (G1 & G2 & G3 & G4) H. apply (final2 w check d0 d G1 G2 G3 G4 H). Qed.
Print Assumptions C66_archive.
(** A failed WAL file is in the report of its archive id, in a range that has its segment *)
Theorem C66_bad_reported : forall w check d0 d id p f, good w d0 -> completed w check d0 d -> In (id, p) (walPaths w (vdIds d0)) -> In f (walFiles w (vdFilter d0) id p) -> walResult w (vdFilter d0) check (id, p, f) <> Ok VOk ->
  exists a r, In a (vdArch d) /\ vaId a = id /\ In r (vaRanges a) /\ In (mkVbad (slashed id (slashed p f)) (reason (walResult w (vdFilter d0) check (id, p, f)))) (vrBad r).
Proof.
  intros w check d0 d id p f G HC Hp Hf HR. destruct (C66_archive w check d0 d G HC) as [A1 A2]. pose proof Hp as Hq. apply in_flat_map in Hq. destruct Hq as (i & Hi & Hq). apply in_map_iff in Hq. destruct Hq as (q & E & Hq). injection E as -> ->.
  assert (X : In id (map vaId (vdArch d))) by (rewrite A1; exact Hi). apply in_map_iff in X. destruct X as (a & Ea & Ha). destruct (A2 a Ha) as (_ & _ & _ & rs & R1 & R2 & _ & _). rewrite Ea in R1, R2.
  assert (S : In (firstn 24 f) (concat rs)) by (rewrite R1; apply in_map; apply in_flat_map; exists p; auto). apply in_concat in S. destruct S as (r & Hr & S).
  assert (K : exists x, In x (vaRanges a) /\ badsAre (walResults w (vdFilter d0) check (vdIds d0)) id r (vrBad x)).
  { clear -R2 Hr. induction R2 as [| y x l l' H _ IH]; [destruct Hr|]. destruct Hr as [<- | Hr]; [exists x; split; [now left | apply H]|]. destruct (IH Hr) as (x0 & K1 & K2). exists x0. split; [now right | exact K2]. }
  destruct K as (x & Hx & K). exists a, x. split; [exact Ha|]. split; [exact Ea|]. split; [exact Hx|]. apply (Permutation_in _ (Permutation_sym K)). apply in_map_iff. exists (id, p, f, walResult w (vdFilter d0) check (id, p, f)). split; [reflexivity|].
  apply filter_In. split; [apply in_map_iff; exists (id, p, f); split; [reflexivity|]; apply in_flat_map; exists (id, p); split; [exact Hp | now apply in_map]|]. unfold ofId. rewrite strEqb_refl. cbn [andb fst snd]. rewrite (proj2 (strLstExists_in _ _) S).
  destruct (walResult w (vdFilter d0) check (id, p, f)) as [[] | |]; try reflexivity. now elim HR.
Qed.
Print Assumptions C66_bad_reported.
(** The result of a job that is out can be processed at any time: no result refers to an archive id or backup that is not known *)
Theorem C66_no_lost_result : forall w check d0 d a j b, good w d0 -> vrun w check (d0, []) (d, a ++ j :: b) -> exists d', verifyResult (vjKey j) (check j) d = Ok d'.
Proof. intros w check d0 d a j b G. exact (result_ok w check d0 G d a j b). Qed.
Print Assumptions C66_no_lost_result.
(** The start: nothing done, labels sorted and without duplicates *)
Theorem C66_start : forall backups info ids history set, let d := verifyStart backups info ids history set in
  fresh d /\ vdIds d = ids /\ (vdErrors d = 0 <-> incl ids history) /\ 0 <= vdErrors d /\ (set = None -> forall l, In l (vdBackups d) <-> In l backups \/ In l info) /\ (forall l, vdCurrent d = Some l -> In l (vdBackups d) /\ ~ In l info).
Proof.
  intros backups info ids history set d. unfold d, verifyStart. destruct (match set with Some m => _ | None => _ end) as (back, fil) eqn:ES. unfold setBackupCheckArchive. cbn [vdIds vdErrors vdBackups vdCurrent].
  split; [repeat split; cbn; destruct ids; [reflexivity | discriminate]|]. split; [reflexivity|]. split; [| split; [destruct (forallb _ ids); lia | split]].
  - destruct (forallb (strLstExists history) ids) eqn:E; split; try discriminate; [intros _ x Hx; rewrite forallb_forall in E; apply strLstExists_in; now apply E | reflexivity |]. intros H. exfalso. apply not_true_iff_false in E. apply E. apply forallb_forall. intros x Hx. apply strLstExists_in. now apply H.
  - intros -> l. injection ES as <- <-. rewrite strLstSortAsc_in, in_app_iff, strLstSortAsc_in, filter_In. split; [tauto|]. intros [H | H]; [now left|]. destruct (strLstExists (strLstSortAsc backups) l) eqn:E; [left; apply strLstExists_in in E; exact (proj1 (strLstSortAsc_in _ _) E) | right; auto].
  - intros l. destruct (lastOf back) as [x |] eqn:EL; [| discriminate]. destruct (strLstExists info x) eqn:EI; [discriminate|]. intros E. injection E as <-. split; [| intros F; apply strLstExists_in in F; congruence]. clear -EL. induction back as [| y [| z r] IH]; [discriminate | injection EL as ->; now left | right; exact (IH EL)].
Qed.
Print Assumptions C66_start.

(** Which backups and WAL are asked for: all of the repository and backup.info, or with a set the backup itself, what it refers to if it has block incremental files, and its range of WAL *)
Theorem C66_start_lists : forall backups info ids history set, NoDup backups -> NoDup info -> let d := verifyStart backups info ids history set in
  NoDup (vdBackups d) /\ (forall l, vdCurrent d = Some l <-> In l (vdBackups d) /\ (forall x, In x (vdBackups d) -> sle x l) /\ ~ In l info) /\
  match set with
  | None => vdFilter d = None /\ forall l, In l (vdBackups d) <-> In l backups \/ In l info
  | Some None => vdFilter d = Some None /\ forall l, In l (vdBackups d) <-> In l backups
  | Some (Some m) => vdFilter d = Some (vmWal m) /\ forall l, In l (vdBackups d) <-> In l backups \/ (exists f, In f (vmFiles m) /\ vfBlock f = true) /\ In l (vmRefs m)
  end.
Proof.
  intros backups info ids history set N1 N2 d. unfold d, verifyStart. destruct (match set with Some m => _ | None => _ end) as (back, fil) eqn:ES. unfold setBackupCheckArchive. cbn [vdBackups vdCurrent vdFilter].
  pose proof (Permutation_NoDup (Permutation_sym (strLstSortAsc_perm backups)) N1) as N3. pose proof (strLstSortAsc_in backups) as SI.
  assert (K : exists l, back = strLstSortAsc l /\ NoDup l /\ match set with None => fil = None /\ forall x, In x l <-> In x backups \/ In x info | Some None => fil = Some None /\ forall x, In x l <-> In x backups
    | Some (Some m) => fil = Some (vmWal m) /\ forall x, In x l <-> In x backups \/ (exists f, In f (vmFiles m) /\ vfBlock f = true) /\ In x (vmRefs m) end).
  { destruct set as [[m |] |]; cbn [backupSet] in ES.
    - destruct (existsb vfBlock (vmFiles m)) eqn:EX; injection ES as <- <-.
      + assert (F : forall refs l, NoDup l -> NoDup (fold_left (fun l r => if strLstExists l r then l else l ++ [r]) refs l) /\ forall x, In x (fold_left (fun l r => if strLstExists l r then l else l ++ [r]) refs l) <-> In x l \/ In x refs).
        { clear. induction refs as [| r refs IH]; intros l N; cbn [fold_left]; [split; [exact N | intros x; cbn; tauto]|]. destruct (strLstExists l r) eqn:E.
          - destruct (IH l N) as [A B]. split; [exact A|]. intros x. rewrite B. apply strLstExists_in in E. cbn [In]. split; [tauto | intros [H | [<- | H]]; auto].
          - assert (NI : ~ In r l) by (intros F; apply strLstExists_in in F; congruence). destruct (IH (l ++ [r])) as [A B]; [apply (Permutation_NoDup (l := r :: l)); [apply Permutation_cons_append | now constructor]|]. split; [exact A|]. intros x. rewrite B, in_app_iff. cbn [In]. tauto. }
        destruct (F (vmRefs m) (strLstSortAsc backups) N3) as [A B]. eexists. split; [reflexivity|]. split; [exact A|]. split; [reflexivity|]. intros x. rewrite B, SI. apply existsb_exists in EX. destruct EX as (f & E1 & E2). split; [intros [H | H]; [now left | right; split; [eauto | exact H]] | tauto].
      + exists backups. split; [reflexivity|]. split; [exact N1|]. split; [reflexivity|]. intros x. split; [now left|]. intros [H | ((f & E1 & E2) & _)]; [exact H|]. exfalso. apply not_true_iff_false in EX. apply EX. apply existsb_exists. eauto.
    - injection ES as <- <-. exists backups. split; [reflexivity|]. split; [exact N1|]. split; [reflexivity | tauto].
    - injection ES as <- <-. eexists. split; [reflexivity|]. split; [| split; [reflexivity|]].
      + assert (X : NoDup (filter (fun l => negb (strLstExists (strLstSortAsc backups) l)) info)) by now apply NoDup_filter.
        assert (Y : forall x, In x (strLstSortAsc backups) -> ~ In x (filter (fun l => negb (strLstExists (strLstSortAsc backups) l)) info)) by (intros x Hx F; apply filter_In in F; destruct F as [_ F]; apply strLstExists_in in Hx; rewrite Hx in F; discriminate).
        revert X Y. generalize (filter (fun l => negb (strLstExists (strLstSortAsc backups) l)) info). clear -N3. induction (strLstSortAsc backups) as [| a l IH]; intros k X Y; [exact X|]. cbn [app]. inversion N3; subst. constructor; [rewrite in_app_iff; intros [F | F]; [contradiction | exact (Y a (or_introl eq_refl) F)]|]. apply IH; auto. intros x Hx. apply Y. now right.
      + intros x. rewrite in_app_iff, SI, filter_In. split; [tauto|]. intros [H | H]; [now left|]. destruct (strLstExists (strLstSortAsc backups) x) eqn:E; [left; apply strLstExists_in in E; now apply SI | right; auto]. }
  destruct K as (l & -> & ND & K). pose proof (strLstSortAsc_in l) as LI. split; [exact (Permutation_NoDup (Permutation_sym (strLstSortAsc_perm l)) ND)|]. split.
  - intros x. pose proof (strLstSortAsc_sorted l) as SO. pose proof (Permutation_NoDup (Permutation_sym (strLstSortAsc_perm l)) ND) as ND2. clear -SO ND2. revert SO ND2. generalize (strLstSortAsc l) as k. clear l. intros k SO ND.
    destruct k as [| a k] using rev_ind; [cbn; split; [discriminate | intros [[] _]]|]. clear IHk. rewrite lastOf_app. apply StronglySorted_app_inv in SO. destruct SO as (_ & _ & SO).
    assert (MX : forall y, In y (k ++ [a]) -> sle y a) by (intros y Hy; apply in_app_or in Hy; destruct Hy as [Hy | [<- | []]]; [apply SO; [exact Hy | now left] | apply sle_refl]).
    split.
    + destruct (strLstExists info a) eqn:E; [discriminate|]. intros H. injection H as <-. split; [apply in_or_app; right; now left|]. split; [exact MX|]. intros F. apply strLstExists_in in F. congruence.
    + intros (H1 & H2 & H3). assert (x = a) by (apply sle_antisym; [now apply MX | apply H2, in_or_app; right; now left]). subst x. destruct (strLstExists info a) eqn:E; [apply strLstExists_in in E; contradiction | reflexivity].
  - destruct set as [[m |] |]; destruct K as [K1 K2]; (split; [exact K1|]); intros x; rewrite LI; apply K2.
Qed.
Print Assumptions C66_start_lists.

(** C67: the errors counted are those of the archive ids (before), segments with more than one file, manifests that cannot be used, WAL files that fail and are not missing, and files of backups that fail *)
Theorem C67_errors : forall w check d0 d, good w d0 -> completed w check d0 d ->
  exists dups jobs, Forall2 (fun x e => dupsAre w (vdFilter d0) (fst x) (snd x) e) (walPaths w (vdIds d0)) dups /\
    (forall l f r, In (l, f, r) jobs -> In l (vdBackups d0) /\ exists m, usable w (vdCurrent d0) l m /\ In f (vmFiles m) /\ needed m f = true /\ r = check (jobOf l m f)) /\
    (forall l m f, In l (vdBackups d0) -> usable w (vdCurrent d0) l m -> In f (vmFiles m) -> needed m f = true -> vfRef f = None -> In (l, f, check (jobOf l m f)) jobs) /\
    vdErrors d = vdErrors d0 + sumZ dups + sumZ (map (manifestErr w (vdCurrent d0)) (vdBackups d0)) + sumZ (map (fun x => counted true (snd x)) (walResults w (vdFilter d0) check (vdIds d0))) + sumZ (map (fun x => counted false (snd x)) jobs).
Proof.
  intros w check d0 d (G1 & G2 & G3 & G4) H. destruct (final2 w check d0 d G1 G2 G3 G4 H) as (_ & RB & es & B1 & B2 & (DB & B3 & B4) & B5 & B6). exists es, RB. split; [exact B5|].
  assert (K : forall l f r, In (l, f, r) RB -> In l (vdBackups d0) /\ exists m, usable w (vdCurrent d0) l m /\ In f (vmFiles m) /\ needed m f = true /\ r = check (jobOf l m f)) by (intros l f r Hx; destruct (B2 _ Hx) as [X Y]; split; [exact Y | exact X]).
  split; [exact K|]. split; [| exact B6]. intros l m f Hl HU Hf HN HR. destruct (file_fate w d0 d RB DB l m f B4 B3 B1 Hl HU Hf HN) as [(r & Hr) | (r & p & X & _)]; [| congruence]. destruct (K _ _ _ Hr) as (_ & m' & U & _ & _ & ->). unfold usable in *. rewrite HU in U. injection U as <-. exact Hr.
Qed.
Print Assumptions C67_errors.
(** No errors: everything was checked.  References must lead to the file of the backup that is referred to. *)
Theorem C67_sound : forall w check d0 d, good w d0 -> completed w check d0 d -> 0 <= vdErrors d0 -> vdErrors d = 0 -> coherent w (vdCurrent d0) check (vdBackups d0) ->
  vdErrors d0 = 0 /\
  (forall id p f, In (id, p) (walPaths w (vdIds d0)) -> In f (listed w (vdFilter d0) id p) -> once (listed w (vdFilter d0) id p) f = true /\ (walResult w (vdFilter d0) check (id, p, f) = Ok VOk \/ walResult w (vdFilter d0) check (id, p, f) = Ok VMissing)) /\
  (forall l, In l (vdBackups d0) -> manifestErr w (vdCurrent d0) l = 0) /\
  (forall l m f, In l (vdBackups d0) -> usable w (vdCurrent d0) l m -> In f (vmFiles m) -> needed m f = true -> check (jobOf l m f) = Ok VOk).
Proof. intros w check d0 d G H. exact (sound w check d0 d G H). Qed.
Print Assumptions C67_sound.
(** No false alarm *)
Theorem C67_alarm : forall w check d0 d, good w d0 -> completed w check d0 d -> vdErrors d <> vdErrors d0 ->
  (exists id p f, In (id, p) (walPaths w (vdIds d0)) /\ In f (listed w (vdFilter d0) id p) /\ once (listed w (vdFilter d0) id p) f = false) \/
  (exists id p f, In (id, p) (walPaths w (vdIds d0)) /\ In f (listed w (vdFilter d0) id p) /\ walResult w (vdFilter d0) check (id, p, f) <> Ok VOk /\ walResult w (vdFilter d0) check (id, p, f) <> Ok VMissing) \/
  (exists l, In l (vdBackups d0) /\ manifestErr w (vdCurrent d0) l <> 0) \/
  (exists l m f, In l (vdBackups d0) /\ usable w (vdCurrent d0) l m /\ In f (vmFiles m) /\ needed m f = true /\ check (jobOf l m f) <> Ok VOk).
Proof. intros w check d0 d G H. exact (alarm w check d0 d G H). Qed.
Print Assumptions C67_alarm.
(** The report of a backup with a manifest: every file is counted once, as valid or invalid, and the backup is invalid exactly if a file is.  Without one the status is that of the manifest. *)
Theorem C67_status : forall w check d0 d, good w d0 -> completed w check d0 d -> map vkLabel (vdBack d) = vdBackups d0 /\ forall b, In b (vdBack d) ->
  match manifestOf w (vdCurrent d0) (vkLabel b) with
  | (None, s, _) => vkStatus b = s /\ vkBad b = [] /\ vkManifest b = 0 /\ vkVerify b = 0 /\ vkValid b = 0
  | (Some m, _, _) => vkManifest b = Z.of_nat (length (vmFiles m)) /\ vkVerify b = vkManifest b /\ vkValid b + Z.of_nat (length (vkBad b)) = vkVerify b /\
      (vkStatus b = SValid <-> vmFiles m <> [] /\ vkBad b = []) /\ (vkStatus b = SInvalid <-> vmFiles m = [] \/ vkBad b <> [])
  end.
Proof.
  intros w check d0 d (G1 & G2 & G3 & G4) H. destruct (final2 w check d0 d G1 G2 G3 G4 H) as (_ & RB & es & B1 & B2 & (DB & B3 & B4) & B5 & B6). split; [exact B1|]. intros b Hb. pose proof (B4 b Hb) as K. pose proof (counts w d0 d G2 RB DB b) as C. unfold usable in C. unfold backOk in K.
  change (manOf w (vdCurrent d0)) with (manifestOf w (vdCurrent d0)) in K. destruct (manifestOf w (vdCurrent d0) (vkLabel b)) as (([m |], s), e) eqn:EM.
  - destruct (vmFiles m) as [| f0 fs] eqn:EV.
    + destruct K as [K _]. rewrite K. cbn [vkManifest vkVerify vkValid vkBad vkStatus length]. repeat split; try reflexivity; try discriminate; auto; intros [X _]; now elim X.
    + rewrite <- EV. destruct (C m (B4 b Hb) B3 eq_refl ltac:(rewrite EV; discriminate)) as (C1 & C2 & C3 & C4). split; [exact C1|]. split; [exact C2|]. split; [exact C3|]. rewrite C4, EV. destruct (vkBad b); split; split; try discriminate; auto; try (intros [X Y]; discriminate); [split; [discriminate | reflexivity] | intros [X | X]; [discriminate | now elim X] | right; discriminate].
  - destruct K as [K _]. rewrite K. cbn [newBack vkManifest vkVerify vkValid vkBad vkStatus]. auto.
Qed.
Print Assumptions C67_status.
(** A file of the backup itself that fails makes the backup invalid, with the name and the reason *)
Theorem C67_own_failure : forall w check d0 d l m f, good w d0 -> completed w check d0 d -> In l (vdBackups d0) -> usable w (vdCurrent d0) l m -> In f (vmFiles m) -> needed m f = true -> vfRef f = None ->
  check (jobOf l m f) <> Ok VOk -> exists b, In b (vdBack d) /\ vkLabel b = l /\ vkStatus b = SInvalid /\ In (mkVbad (repoName l m f) (reason (check (jobOf l m f)))) (vkBad b).
Proof.
  intros w check d0 d l m f (G1 & G2 & G3 & G4) H Hl HU Hf HN HR HF. destruct (final2 w check d0 d G1 G2 G3 G4 H) as (_ & RB & es & B1 & B2 & (DB & B3 & B4) & B5 & B6).
  destruct (file_fate w d0 d RB DB l m f B4 B3 B1 Hl HU Hf HN) as [(r & Hr) | (r & p & X & _)]; [| congruence]. destruct (B2 _ Hr) as ((m' & U & _ & _ & E) & _). unfold usable in HU. change (manOf w (vdCurrent d0)) with (manifestOf w (vdCurrent d0)) in U. pose proof U as U'. rewrite HU in U'. injection U' as <-.
  rewrite <- B1 in Hl. apply in_map_iff in Hl. destruct Hl as (b & Eb & Hb). exists b. split; [exact Hb|]. split; [exact Eb|]. rewrite <- E. apply (failed_invalid w d0 d RB DB b l m f r (B4 b Hb) Eb HU Hr); [| exact B3]. rewrite E. destruct (check (jobOf l m f)) as [[] | |]; try reflexivity. now elim HF.
Qed.
Print Assumptions C67_own_failure.
(** What is reported as invalid fails its check *)
Theorem C67_bad_is_bad : forall w check d0 d b x, good w d0 -> completed w check d0 d -> In b (vdBack d) -> In x (vkBad b) ->
  exists l m f, usable w (vdCurrent d0) l m /\ In f (vmFiles m) /\ needed m f = true /\ check (jobOf l m f) <> Ok VOk /\ x = mkVbad (repoName l m f) (reason (check (jobOf l m f))).
Proof.
  intros w check d0 d b x (G1 & G2 & G3 & G4) H Hb Hx. destruct (real_done w check d0 G1 G2 G3 G4 d H b x Hb Hx) as (l & m & f & R1 & R2 & R3 & R4 & R5). exists l, m, f. split; [exact R1|]. split; [exact R2|]. split; [exact R3|]. split; [| exact R5]. intros E. rewrite E in R4. discriminate.
Qed.
Print Assumptions C67_bad_is_bad.
(** The manifest that is used, its status and errors *)
Theorem C67_manifest : forall w cur label, let x := manifestOf w cur label in
  let progress := cur = Some label /\ vwMain w label = Err EFileMissing in
  (forall m, fst (fst x) = Some m <-> (vwMain w label = Ok m \/ (forall n, vwMain w label <> Ok n) /\ ~ progress /\ vwCopy w label = Ok m) /\ In (vmPg m) (vwHistory w)) /\
  (snd (fst x) = SProgress <-> progress) /\
  (snd (fst x) = SMissing <-> ~ progress /\ vwMain w label = Err EFileMissing /\ vwCopy w label = Err EFileMissing) /\
  (snd (fst x) = SValid <-> fst (fst x) <> None) /\ snd x = match snd (fst x) with SInvalid => 1 | _ => 0 end.
Proof.
  intros w cur label x progress. unfold x, progress, manifestOf, verifyManifestFile. clear x progress.
  assert (PG : forall m, existsb (pgEqb (vmPg m)) (vwHistory w) = true <-> In (vmPg m) (vwHistory w)).
  { intros m. rewrite existsb_exists. split; [intros (((a, b), c) & H1 & H2); destruct (vmPg m) as ((a', b'), c'); unfold pgEqb in H2; rewrite !andb_true_iff, !Z.eqb_eq in H2; destruct H2 as [[-> ->] ->]; exact H1 |].
    intros H. exists (vmPg m). split; [exact H|]. destruct (vmPg m) as ((a, b), c). cbn. now rewrite !Z.eqb_refl. }
  set (cu := match cur with Some c => strEqb c label | None => false end). assert (CU : cu = true <-> cur = Some label). { unfold cu. destruct cur as [c |]; [rewrite strEqb_eq; split; [now intros -> | now intros [= ->]] | split; discriminate]. }
  assert (MI : forall r : res vman, isMissing r = true <-> r = Err EFileMissing) by (intros [m | [] |]; split; intros E; try discriminate; reflexivity).
  assert (NB : forall b : bool, b = true \/ b = false) by (intros []; auto).
  destruct (vwMain w label) as [m | e |] eqn:EMn.
  - pose proof (PG m) as P. destruct (existsb (pgEqb (vmPg m)) (vwHistory w)) eqn:EX; cbn [fst snd].
    + repeat split; try discriminate; try (intros; intuition congruence). all: intros [[E | (E & _)] _]; [congruence | now elim (E m)].
    + repeat split; try discriminate; try (intros; intuition congruence). all: intros [[E | (E & _)] F]; [injection E as <-; apply P in F; discriminate | now elim (E m)].
  - destruct (cu && isMissing (Err e)) eqn:EC; cbn [fst snd].
    + apply andb_true_iff in EC. rewrite CU, MI in EC. destruct EC as [E1 E2]. repeat split; try discriminate; try (intros; intuition congruence).
    + assert (NP : ~ (cur = Some label /\ @Err vman e = Err EFileMissing)) by (intros [E1 E2]; apply CU in E1; apply MI in E2; rewrite E1, E2 in EC; discriminate).
      destruct (vwCopy w label) as [m | e2 |] eqn:ECp; cbn [fst snd].
      * pose proof (PG m) as P. destruct (existsb (pgEqb (vmPg m)) (vwHistory w)) eqn:EX; cbn [fst snd]; repeat split; try discriminate; try (intros; intuition congruence); try (intros; exfalso; intuition congruence).
        all: intros [[E | (_ & _ & E)] F]; [discriminate | injection E as <-; apply P in F; discriminate].
      * pose proof (MI (Err e)) as M1. pose proof (MI (Err e2)) as M2. destruct (isMissing (Err e)), (isMissing (Err e2)); cbn [andb fst snd]; repeat split; try discriminate; try (intros; intuition congruence); try (intros; exfalso; intuition congruence).
      * rewrite andb_false_r. cbn [fst snd]. repeat split; try discriminate; try (intros; intuition congruence); try (intros; exfalso; intuition congruence).
  - rewrite andb_false_r. destruct (vwCopy w label) as [m | e2 |] eqn:ECp; cbn [fst snd isMissing andb].
    + pose proof (PG m) as P. destruct (existsb (pgEqb (vmPg m)) (vwHistory w)) eqn:EX; cbn [fst snd]; repeat split; try discriminate; try (intros; intuition congruence); try (intros; exfalso; intuition congruence).
      all: intros [[E | (_ & _ & E)] F]; [discriminate | injection E as <-; apply P in F; discriminate].
    + repeat split; try discriminate; try (intros; intuition congruence).
    + repeat split; try discriminate; try (intros; intuition congruence).
Qed.
Print Assumptions C67_manifest.

(** The check of one file: it passes exactly if it can be read and what is in it, decrypted and decompressed as asked, has the checksum and size; it is missing exactly if it cannot be read *)
Theorem C67_file : forall read decrypt decompress sha1 j, let r := verifyFile read decrypt decompress sha1 j in
  let plain b x := exists y, (if match vjCipher j with VNone => true | _ => false end then y = b else decrypt (vjCipher j) b = Ok y) /\ (if match vjExt j with [] => true | _ => false end then x = y else decompress (vjExt j) y = Ok x) in
  (r = Ok VMissing <-> read (vjPath j) (vjPart j) = None) /\
  (r = Ok VOk <-> exists b x, read (vjPath j) (vjPart j) = Some b /\ plain b x /\ sha1 x = vjSum j /\ Z.of_nat (length x) = vjSize j) /\
  (r = Ok VChecksum <-> exists b x, read (vjPath j) (vjPart j) = Some b /\ plain b x /\ sha1 x <> vjSum j) /\
  (r = Ok VSize <-> exists b x, read (vjPath j) (vjPart j) = Some b /\ plain b x /\ sha1 x = vjSum j /\ Z.of_nat (length x) <> vjSize j) /\ r <> Ok VOther.
Proof.
  intros read decrypt decompress sha1 j r plain. unfold r, verifyFile. clear r. destruct (read (vjPath j) (vjPart j)) as [b |]; [| repeat split; try discriminate; intros; firstorder discriminate].
  assert (D : forall (P : Prop) x, (plain b x -> P) -> plain b x -> P) by auto. clear D.
  assert (PL : forall k : list Z -> res vres, (forall x, plain b x -> (let* y := match vjCipher j with VNone => Ok b | c => decrypt c b end in let* y := match vjExt j with [] => Ok y | e => decompress e y end in k y) = k x) /\
    ((forall x, ~ plain b x) -> exists e, (let* y := match vjCipher j with VNone => Ok b | c => decrypt c b end in let* y := match vjExt j with [] => Ok y | e => decompress e y end in k y) = e /\ forall v, e <> Ok v)).
  { intros k. split.
    - intros x (y & H1 & H2). destruct (vjCipher j); [subst y | rewrite H1 | rewrite H1]; cbn [bind]; (destruct (vjExt j); [subst x; reflexivity | rewrite H2; reflexivity]).
    - intros N. destruct (vjCipher j) as [| | l] eqn:EC; cbn [bind].
      + destruct (vjExt j) as [| c e] eqn:EE; cbn [bind]; [exfalso; apply (N b); exists b; unfold plain; rewrite ?EC, ?EE; auto|]. destruct (decompress (c :: e) b) as [x | |] eqn:ED; cbn [bind]; [exfalso; apply (N x); exists b; unfold plain; rewrite ?EC, ?EE; auto | |]; eexists; (split; [reflexivity | discriminate]).
      + destruct (decrypt VArchive b) as [y | |] eqn:EY; cbn [bind]; [| eexists; (split; [reflexivity | discriminate]) | eexists; (split; [reflexivity | discriminate])].
        destruct (vjExt j) as [| c e] eqn:EE; cbn [bind]; [exfalso; apply (N y); exists y; unfold plain; rewrite ?EC, ?EE; auto|]. destruct (decompress (c :: e) y) as [x | |] eqn:ED; cbn [bind]; [exfalso; apply (N x); exists y; unfold plain; rewrite ?EC, ?EE; auto | |]; eexists; (split; [reflexivity | discriminate]).
      + destruct (decrypt (VManifest l) b) as [y | |] eqn:EY; cbn [bind]; [| eexists; (split; [reflexivity | discriminate]) | eexists; (split; [reflexivity | discriminate])].
        destruct (vjExt j) as [| c e] eqn:EE; cbn [bind]; [exfalso; apply (N y); exists y; unfold plain; rewrite ?EC, ?EE; auto|]. destruct (decompress (c :: e) y) as [x | |] eqn:ED; cbn [bind]; [exfalso; apply (N x); exists y; unfold plain; rewrite ?EC, ?EE; auto | |]; eexists; (split; [reflexivity | discriminate]). }
  destruct (PL (fun x => if negb (strEqb (vjSum j) (sha1 x)) then Ok VChecksum else if negb (vjSize j =? Z.of_nat (length x)) then Ok VSize else Ok VOk)) as [P1 P2]. clear PL.
  set (r := let* y := match vjCipher j with VNone => Ok b | c => decrypt c b end in _) in *.
  assert (UN : forall x x', plain b x -> plain b x' -> x = x').
  { intros x x' (y & A1 & A2) (y' & B1 & B2). assert (y = y') by (destruct (vjCipher j); [congruence | rewrite A1 in B1; now injection B1 | rewrite A1 in B1; now injection B1]). subst y'. destruct (vjExt j); [congruence | rewrite A2 in B2; now injection B2]. }
  assert (CS : (exists x, plain b x) \/ forall x, ~ plain b x).
  { unfold plain. destruct (if match vjCipher j with VNone => true | _ => false end then Ok b else decrypt (vjCipher j) b) as [y | |] eqn:EY.
    - assert (HY : if match vjCipher j with VNone => true | _ => false end then y = b else decrypt (vjCipher j) b = Ok y) by (destruct (vjCipher j); [now injection EY | exact EY | exact EY]).
      destruct (if match vjExt j with [] => true | _ => false end then Ok y else decompress (vjExt j) y) as [x | |] eqn:EX; [left; exists x, y; split; [exact HY|]; destruct (vjExt j); [now injection EX | exact EX] | |];
        right; intros x (y' & A1 & A2); (assert (y' = y) by (destruct (vjCipher j); congruence)); subst y'; destruct (vjExt j); congruence.
    - right. intros x (y & A1 & _). destruct (vjCipher j); congruence.
    - right. intros x (y & A1 & _). destruct (vjCipher j); congruence. }
  destruct CS as [(x & HX) | N].
  - rewrite (P1 x HX). assert (EQ : forall Q : list Z -> Prop, (exists b' x', Some b = Some b' /\ plain b' x' /\ Q x') <-> Q x) by (intros Q; split; [intros (b' & x' & E & H1 & H2); injection E as <-; now rewrite (UN x x' HX H1) | intros H; exists b, x; auto]).
    rewrite (EQ (fun x => sha1 x = vjSum j /\ Z.of_nat (length x) = vjSize j)), (EQ (fun x => sha1 x <> vjSum j)), (EQ (fun x => sha1 x = vjSum j /\ Z.of_nat (length x) <> vjSize j)).
    destruct (strEqb_spec (vjSum j) (sha1 x)) as [E1 | E1]; cbn [negb]; [destruct (vjSize j =? Z.of_nat (length x)) eqn:E2; cbn [negb]; [apply Z.eqb_eq in E2 | apply Z.eqb_neq in E2]|]; repeat split; try discriminate; intros; try (intuition congruence); exfalso; intuition congruence.
  - destruct (P2 N) as (e & -> & NE). repeat split; try (intros E; exfalso; exact (NE _ E)); try (apply NE); try discriminate; intros (b1 & x1 & E1 & X1 & _); injection E1 as <-; elim (N x1 X1).
Qed.
Print Assumptions C67_file.
(** Not every backup that is reported valid is valid: a backup counts as done when all its jobs are given out, so a file that refers to it may be taken as valid while the check of it is out *)
Theorem C67_race_refuted : exists w check d0 d b m f, good w d0 /\ coherent w (vdCurrent d0) check (vdBackups d0) /\ completed w check d0 d /\ In b (vdBack d) /\ vkStatus b = SValid /\
  usable w (vdCurrent d0) (vkLabel b) m /\ In f (vmFiles m) /\ needed m f = true /\ check (jobOf (vkLabel b) m f) = Ok VChecksum /\ vfBundle f = 0.
Proof.
  destruct (driven (exWorld 0) exCheck [true; true; false; true; false; false] (exStart [exDiff; exFull] [])) as [d |] eqn:E; [| vm_compute in E; discriminate].
  exists (exWorld 0), exCheck, (exStart [exDiff; exFull] []), d. assert (B : exists b, In b (vdBack d) /\ vkLabel b = exDiff /\ vkStatus b = SValid) by (vm_compute in E; injection E as <-; eexists; split; [right; left; reflexivity | split; reflexivity]).
  destruct B as (b & B1 & B2 & B3). exists b, (exMan [exFile "a" (Some exFull) 0; exFile "b" (Some exFull) 0; exFile "c" None 0]), (exFile "b" (Some exFull) 0). rewrite B2.
  split; [apply ex_good; auto|]. split; [| split; [exact (driven_completed _ _ _ _ _ E) | repeat split; auto; cbn; auto]].
  intros l m f r m' Hl HU Hf HN HR HU'. assert (EL : l = exFull \/ l = exDiff) by (vm_compute in Hl; destruct Hl as [<- | [<- | []]]; auto). destruct EL as [-> | ->]; vm_compute in HU; injection HU as <-; cbn [vmFiles In] in Hf.
  - destruct Hf as [<- | [<- | []]]; discriminate.
  - destruct Hf as [<- | [<- | [<- | []]]]; [| | discriminate]; injection HR as <-; vm_compute in HU'; injection HU' as <-; cbn [vmFiles]; [exists (exFile "a" None 0) | exists (exFile "b" None 0)]; repeat split; cbn [In]; auto; vm_compute; auto.
Qed.
Print Assumptions C67_race_refuted.
(** The same with any order of results if files are in bundles: the name that is looked up is not the one that was reported *)
Theorem C67_bundle_refuted : exists w check d0 d b m f, good w d0 /\ completed w check d0 d /\ In b (vdBack d) /\ vkStatus b = SValid /\
  usable w (vdCurrent d0) (vkLabel b) m /\ In f (vmFiles m) /\ needed m f = true /\ check (jobOf (vkLabel b) m f) = Ok VChecksum /\
  exists p, In p (vdBack d) /\ vfRef f = Some (vkLabel p) /\ In (mkVbad (repoName (vkLabel b) m f) VChecksum) (vkBad p).
Proof.
  set (check := fun j => if ends (txt "/c") (vjPath j) then Ok VOk else Ok VChecksum).
  destruct (driven (exWorld 1) check [true; true; false; false; true; false] (exStart [exDiff; exFull] [])) as [d |] eqn:E; [| vm_compute in E; discriminate].
  exists (exWorld 1), check, (exStart [exDiff; exFull] []), d. pose proof (driven_completed _ _ _ _ _ E) as HC.
  assert (B : exists b p, In b (vdBack d) /\ vkLabel b = exDiff /\ vkStatus b = SValid /\ In p (vdBack d) /\ vkLabel p = exFull /\ In (mkVbad (txt "20190101-000000F/bundle/1") VChecksum) (vkBad p))
    by (vm_compute in E; injection E as <-; eexists; eexists; split; [right; left; reflexivity | split; [reflexivity | split; [reflexivity | split; [left; reflexivity | split; [reflexivity | vm_compute; left; reflexivity]]]]]).
  destruct B as (b & p & B1 & B2 & B3 & B4 & B5 & B6). exists b, (exMan [exFile "a" (Some exFull) 1; exFile "b" (Some exFull) 1; exFile "c" None 0]), (exFile "b" (Some exFull) 1). rewrite B2.
  split; [apply ex_good; auto|]. split; [exact HC|]. split; [exact B1|]. split; [exact B3|]. split; [reflexivity|]. split; [cbn; auto|]. split; [reflexivity|]. split; [reflexivity|]. exists p. split; [exact B4|]. split; [now rewrite B5 | exact B6].
Qed.
Print Assumptions C67_bundle_refuted.
(** One WAL file may end the whole command: a name with 40 characters that are no checksum (they are accepted by the expression [0-f]), or a first file with a corrupt header *)
Theorem C66_abort_refuted : (exists w d, good w d /\ (forall f, exists n, vwWalSize w f = Ok n) /\ verifyCallback w d = Err EFormat) /\ exists w d, goodIds w (vdIds d) /\ vdBackups d = [exFull] /\ verifyCallback w d = Err EFormat.
Proof.
  assert (GI : forall w f, (forall p, vwPaths w p = [exPath]) -> (forall i p, vwFiles w i p = f) -> (forall x, In x f -> properSeg (firstn 24 x) /\ firstn 16 x = exPath /\ ~ In 47 x) -> goodIds w [exId2]).
  { intros w f H1 H2 H3. split; [repeat constructor; intros []|]. split; [intros a b [<- | []] [<- | []]; split; intros; reflexivity|]. intros id [<- | []]. split; [apply notIn47; reflexivity|]. rewrite H1. split; [repeat constructor; intros []|]. intros p [<- | []]. split; [apply notIn47; reflexivity|]. rewrite H2. split; intros x Hx; [split; apply H3; exact Hx | now apply H3]. }
  split.
  - exists badNameWorld, (exStart [] [exId2]). split; [| split; [intros f; exists 16777216; reflexivity | reflexivity]]. split; [| split; [| split]].
    + apply (GI badNameWorld [badName]); try reflexivity. intros x [<- | []]. split; [apply (ex_proper 1); lia | split; [reflexivity | apply notIn47; reflexivity]].
    + intros f n H. injection H as <-. discriminate.
    + split; [constructor | intros x []].
    + repeat split; cbn; congruence || reflexivity.
  - exists badHeaderWorld, (exStart [exFull] [exId2]). split; [| split; reflexivity]. apply (GI badHeaderWorld exFiles); try reflexivity. intros f Hf. cbn [exFiles In] in Hf.
    destruct Hf as [<- | [<- | [<- | [<- | [<- | []]]]]]; (split; [| split; [reflexivity | apply notIn47; reflexivity]]); [apply (ex_proper 2) | apply (ex_proper 1) | apply (ex_proper 4) | apply (ex_proper 5) | apply (ex_proper 5)]; lia.
Qed.
Print Assumptions C66_abort_refuted.

(** Two archive ids, one without WAL and one with two ranges, a duplicate and a corrupt segment; three backups, one of them without manifests *)
Example C66_nontrivial : exists d, good (exWorld 0) (exStart [exDiff; exGone; exFull] [exId1; exId2]) /\ completed (exWorld 0) exCheck (exStart [exDiff; exGone; exFull] [exId1; exId2]) d /\
  map (fun a => (vaId a, vaTotal a, vaValid a, vaRanges a)) (vdArch d) =
    [(exId1, 0, 0, []); (exId2, 5, 2, [mkVrange (walName 1 0 1) (walName 1 0 2) [mkVbad (slashed exId2 (slashed exPath (exWal 2))) VChecksum]; mkVrange (walName 1 0 4) (walName 1 0 4) []])].
Proof.
  destruct (driven (exWorld 0) exCheck [true; false; true; true; false; false; true; true; false; false; true; false] (exStart [exDiff; exGone; exFull] [exId1; exId2])) as [d |] eqn:E; [| vm_compute in E; discriminate].
  exists d. split; [apply ex_good; auto|]. split; [exact (driven_completed _ _ _ _ _ E)|]. vm_compute in E. injection E as <-. vm_compute. reflexivity.
Qed.
Example C67_nontrivial : exists d, good (exWorld 0) (exStart [exDiff; exGone; exFull] [exId1; exId2]) /\ completed (exWorld 0) exCheck (exStart [exDiff; exGone; exFull] [exId1; exId2]) d /\
  map (fun b => (vkLabel b, vkStatus b, vkVerify b, vkValid b, vkBad b)) (vdBack d) =
    [(exFull, SInvalid, 2, 1, [mkVbad (txt "20190101-000000F/b") VChecksum]); (exDiff, SInvalid, 3, 2, [mkVbad (txt "20190101-000000F/b") VChecksum]); (exGone, SMissing, 0, 0, [])] /\ vdErrors d = 3.
Proof.
  destruct (driven (exWorld 0) exCheck [true; false; true; true; false; false; true; true; false; false; true; false] (exStart [exDiff; exGone; exFull] [exId1; exId2])) as [d |] eqn:E; [| vm_compute in E; discriminate].
  exists d. split; [apply ex_good; auto|]. split; [exact (driven_completed _ _ _ _ _ E)|]. vm_compute in E. injection E as <-. split; vm_compute; reflexivity.
Qed.
(** A run without errors *)
Example C67_sound_nontrivial : exists d, good (exWorld 0) (exStart [exDiff; exFull] []) /\ coherent (exWorld 0) None (fun _ => Ok VOk) [exFull; exDiff] /\ completed (exWorld 0) (fun _ => Ok VOk) (exStart [exDiff; exFull] []) d /\ vdErrors d = 0 /\ length (vdBack d) = 2%nat.
Proof.
  destruct (driven (exWorld 0) (fun _ => Ok VOk) [true; true; false; true; false; false] (exStart [exDiff; exFull] [])) as [d |] eqn:E; [| vm_compute in E; discriminate].
  exists d. split; [apply ex_good; auto|]. split; [| split; [exact (driven_completed _ _ _ _ _ E) | vm_compute in E; injection E as <-; split; reflexivity]].
  intros l m f r m' Hl HU Hf HN HR HU'. destruct Hl as [<- | [<- | []]]; vm_compute in HU; injection HU as <-; cbn [vmFiles In] in Hf.
  - destruct Hf as [<- | [<- | []]]; discriminate.
  - destruct Hf as [<- | [<- | [<- | []]]]; [| | discriminate]; injection HR as <-; vm_compute in HU'; injection HU' as <-; cbn [vmFiles]; [exists (exFile "a" None 0) | exists (exFile "b" None 0)]; repeat split; cbn [In]; auto.
Qed.
