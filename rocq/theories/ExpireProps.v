(** Properties C14-C18 and C20-C22: expiration of backups and reconstruction of backup.info. *)
From Verif Require Import Base Str ExpireModel ExpireSpec ExpireProof ExpireProof2 ExpireProof3 ExpireProof4 ExpireProof5 ExpireProof6.
From Coq Require Import Sorted.
Open Scope Z_scope.

(** A history used by the examples: two full backups, the first with a diff and an incr on the diff. *)
Definition exDate (d : Z) : str := [50;48;50;48;48;49;48;48+d;45;48;48;48;48;48;48].
Definition exF (d : Z) : str := exDate d ++ [70].
Definition exD (f d : Z) : str := exF f ++ 95 :: exDate d ++ [68].
Definition exI (f d : Z) : str := exF f ++ 95 :: exDate d ++ [73].
Definition exList : list backup :=
  [mkBackup (exF 1) None 1 100 None None; mkBackup (exD 1 2) (Some (exF 1)) 1 200 None None;
   mkBackup (exI 1 3) (Some (exD 1 2)) 1 300 None None; mkBackup (exF 4) None 1 400 None None;
   mkBackup (exD 4 5) (Some (exF 4)) 1 500 None None].

Lemma exList_good : goodHistory exList.
Proof.
  split; [split|split].
  - change (StronglySorted slt [exF 1; exD 1 2; exI 1 3; exF 4; exD 4 5]). repeat (constructor; [|repeat constructor; vm_compute; reflexivity]). constructor.
  - intros b p Hb Hp. cbn in Hb. repeat (destruct Hb as [<-|Hb]; [try discriminate; injection Hp as <-; reflexivity|]). destruct Hb.
  - intros b p Hb Hp. destruct Hb as [<-|[<-|[<-|[<-|[<-|[]]]]]]; try discriminate Hp; injection Hp as <-.
    + exists (mkBackup (exF 1) None 1 100 None None). split; [left|]; reflexivity.
    + exists (mkBackup (exD 1 2) (Some (exF 1)) 1 200 None None). split; [right; left|]; reflexivity.
    + exists (mkBackup (exF 4) None 1 400 None None). split; [do 3 right; left|]; reflexivity.
  - intros b Hb. cbn in Hb. repeat (destruct Hb as [<-|Hb]; [cbn [bkPrior bkLabel]; vm_compute; auto|]). destruct Hb.
Qed.

(** C14.  The label expressions accept exactly the label syntax. *)
Theorem C14_label_expressions : forall s,
  (labelFull s = true <-> exists d, dateTime d /\ s = d ++ [70]) /\
  (labelDiff s = true <-> exists f d, (exists d0, dateTime d0 /\ f = d0 ++ [70]) /\ dateTime d /\ s = f ++ 95 :: d ++ [68]) /\
  (labelIncr s = true <-> exists f d, (exists d0, dateTime d0 /\ f = d0 ++ [70]) /\ dateTime d /\ s = f ++ 95 :: d ++ [73]).
Proof.
  intros s. split; [apply labelFull_spec|]. unfold labelDiff, labelIncr. rewrite !labelDep_spec.
  split; (split; intros (f & d & H1 & H2); exists f, d; (split; [now apply labelFull_spec|exact H2])).
Qed.
Print Assumptions C14_label_expressions.

(** C14.  Whatever the options, expire of a well formed history either refuses (only an adhoc expire of the last full backup of a
    cluster) or leaves a well formed history: in order, every prior of a listed backup listed, entries unchanged. *)
Theorem C14_expire_keeps_chains : forall c l, goodHistory l ->
  match expireInfo c l with
  | Ok ((l', _, _), _) => goodHistory l' /\ exists keep, l' = filter keep l
  | Err k => k = EBackupSetInvalid /\ exists b, cSet c = Some (bkLabel b) /\ In b l /\ lastFullOfCluster l b
  | UB => False
  end.
Proof.
  intros c l Hg. pose proof (expireInfo_good c l Hg) as H. destruct (expireInfo c l) as [[[[l' o] e] ar]|k|]; auto.
  destruct H as (-> & lab & b & H1 & H2 & H3 & H4). split; [reflexivity|]. exists b. rewrite H3. auto.
Qed.
Print Assumptions C14_expire_keeps_chains.

(** C14.  Deleting one label: exactly that backup and those that depend on it go, their manifests are removed newest first, nothing else. *)
Theorem C14_expire_backup_exact : forall l lab l' o e, ordered l -> expireBackup false l lab = (l', o, e) ->
  (forall b, In b l' <-> In b l /\ ~ dependsOn l (bkLabel b) lab) /\
  (forall b, In b l -> (In (RmManifest (bkLabel b)) o <-> dependsOn l (bkLabel b) lab)) /\
  (forall x, In (RmManifest x) o -> x = lab \/ In x (map bkLabel l)) /\
  (forall x, ~ In (RmDir x) o) /\
  (forall x, In x e <-> In (RmManifest x) o).
Proof.
  intros l lab l' o e Ho H. pose proof (expireBackup_in _ _ _ _ _ _ Ho H) as Hin. split; [exact Hin|].
  unfold expireBackup in H. injection H as _ <- <-.
  assert (Hr : forall x, In (RmManifest x) (flat_map (fun x => [RmManifest x; RmManifestCopy x]) (strLstSortDesc (dependentList l lab))) <->
                         x = lab \/ (In x (map bkLabel l) /\ dependsOn l x lab)).
  { intros x. rewrite in_flat_map. split.
    - intros (y & Hy & [E|[E|[]]]); [|discriminate]. injection E as ->. rewrite strLstSortDesc_in in Hy. now apply dependentList_in in Hy.
    - intros Hx. exists x. split; [|now left]. rewrite strLstSortDesc_in. now apply dependentList_in. }
  split; [|split; [|split]].
  - intros b Hb. rewrite Hr. split; [intros [->|[_ H]]; [constructor|exact H]|]. intros H. right. split; [now apply in_map|exact H].
  - intros x Hx. apply Hr in Hx. tauto.
  - intros x Hx. apply in_flat_map in Hx. destruct Hx as (y & _ & [E|[E|[]]]); discriminate.
  - intros x. rewrite Hr, strLstSortAsc_in, strLstSortDesc_in. apply dependentList_in, Ho.
Qed.
Print Assumptions C14_expire_backup_exact.

Example C14_nontrivial : goodHistory exList /\
  fst (fst (expireBackup false exList (exD 1 2))) =
    [mkBackup (exF 1) None 1 100 None None; mkBackup (exF 4) None 1 400 None None; mkBackup (exD 4 5) (Some (exF 4)) 1 500 None None].
Proof. split; [exact exList_good|vm_compute; reflexivity]. Qed.

(** C15.  Count based full retention keeps exactly the newest [n] full backups and everything that belongs to them. *)
Theorem C15_full_retention : forall dry n l l' o e, goodHistory l -> (0 < n)%nat -> expireFull dry n l = (l', o, e) ->
  fullLabels l' = newest n (fullLabels l) /\
  (forall b, In b l' <-> In b l /\ In (fullOf (bkLabel b)) (newest n (fullLabels l))).
Proof. intros. edestruct expireFull_spec as (A & B & C & D); eauto. Qed.
Print Assumptions C15_full_retention.

(** C15.  The full backups that remain after the command: those of the count based pass; all when retention is not set or zero; all but
    the oldest with --oldest. *)
Theorem C15_command : forall c l l' o e ar, goodHistory l -> cSet c = None -> expireInfo c l = Ok ((l', o, e), ar) ->
  (cOldest c = false \/ (length (fullLabels l) <= 1)%nat -> cTime c = false ->
   fullLabels l' = match cRetFull c with Some (S n) => newest (S n) (fullLabels l) | _ => fullLabels l end) /\
  (cOldest c = true -> (1 < length (fullLabels l))%nat -> fullLabels l' = tl (fullLabels l)).
Proof. intros c l l' o e ar Hg Hs H. split; intros; [eapply cmd_full|eapply cmd_oldest]; eauto. Qed.
Print Assumptions C15_command.

Example C15_nontrivial : goodHistory exList /\ fullLabels exList = [exF 1; exF 4] /\ newest 1 (fullLabels exList) = [exF 4] /\
  fst (fst (expireFull false 1 exList)) = [mkBackup (exF 4) None 1 400 None None; mkBackup (exD 4 5) (Some (exF 4)) 1 500 None None].
Proof. split; [exact exList_good|]. split; [|split]; vm_compute; reflexivity. Qed.

(** C16.  Diff retention removes exactly the backups that depend on a differential backup older than the newest [n] full and
    differential backups; no full backup goes. *)
Theorem C16_diff_retention : forall dry n l l' o e, goodHistory l -> (0 < n)%nat -> expireDiff dry n l = (l', o, e) ->
  fullLabels l' = fullLabels l /\
  (forall b, In b l' <-> In b l /\
     ~ exists d, In d (older n (fullDiffLabels l)) /\ labelDiff d = true /\ dependsOn l (bkLabel b) d).
Proof. intros. edestruct expireDiff_spec as (A & B & C & D); eauto. Qed.
Print Assumptions C16_diff_retention.

(** C16.  When differentials depend on full backups directly, the newest [n] all remain, and no older differential does. *)
Theorem C16_newest_remain : forall dry n l l' o e, goodHistory l -> diffsOnFulls l -> (0 < n)%nat -> expireDiff dry n l = (l', o, e) ->
  forall x, In x (fullDiffLabels l') <->
    In x (fullDiffLabels l) /\ (labelFull x = true \/ In x (newest n (fullDiffLabels l))).
Proof. exact expireDiff_labels. Qed.
Print Assumptions C16_newest_remain.

Example C16_nontrivial : goodHistory exList /\ diffsOnFulls exList /\ older 1 (fullDiffLabels exList) = [exF 1; exD 1 2; exF 4] /\
  labels (fst (fst (expireDiff false 1 exList))) = [exF 1; exF 4; exD 4 5].
Proof.
  split; [exact exList_good|]. split.
  - intros b p Hb Hd Hp. cbn in Hb. repeat (destruct Hb as [<-|Hb]; [try discriminate; injection Hp as <-; vm_compute; reflexivity|]). destruct Hb.
  - split; vm_compute; reflexivity.
Qed.

(** C17.  Time based retention never fails and removes exactly the backups of full backups that are older than some full backup which
    stopped before the limit; so the newest full backup that satisfies the limit, and all newer ones, stay.  The number of full backups
    kept is what archive retention defaults to. *)
Theorem C17_time_retention : forall dry minTs l, goodHistory l ->
  exists l' o e ar, expireTime dry minTs l = Ok ((l', o, e), ar) /\ goodHistory l' /\
    (forall b, In b l' <-> In b l /\
       ~ exists g, In g l /\ labelFull (bkLabel g) = true /\ bkTimeStop g < minTs /\ slt (fullOf (bkLabel b)) (bkLabel g)) /\
    ((exists g, In g l /\ labelFull (bkLabel g) = true /\ bkTimeStop g < minTs) -> ar = Some (length (fullLabels l'))) /\
    ((~ exists g, In g l /\ labelFull (bkLabel g) = true /\ bkTimeStop g < minTs) -> ar = None).
Proof.
  intros dry minTs l Hg. destruct (expireTime_spec dry minTs l Hg) as (l' & o & e & ar & A & B & _ & C & D & E).
  exists l', o, e, ar. auto.
Qed.
Print Assumptions C17_time_retention.

(** C17.  Command level: with a window of [d] days a full backup is removed exactly when a newer full backup stopped more than [d] days
    ago, and then such a backup remains. *)
Theorem C17_command : forall c l l' o e ar d, goodHistory l ->
  cSet c = None -> cTime c = true -> cOldest c = false \/ (length (fullLabels l) <= 1)%nat -> cRetFull c = Some d ->
  expireInfo c l = Ok ((l', o, e), ar) ->
  forall x, In x (fullLabels l') <->
    In x (fullLabels l) /\
    ~ exists g, In g l /\ labelFull (bkLabel g) = true /\ bkTimeStop g < cNow c - Z.of_nat d * 86400 /\ slt x (bkLabel g).
Proof. exact cmd_time. Qed.
Print Assumptions C17_command.

Example C17_nontrivial : goodHistory exList /\
  (exists o e, expireTime false 401 exList =
    Ok (([mkBackup (exF 4) None 1 400 None None; mkBackup (exD 4 5) (Some (exF 4)) 1 500 None None], o, e), Some 1%nat)) /\
  (exists o e, expireTime false 400 exList = Ok ((exList, o, e), Some 2%nat)) /\
  expireTime false 100 exList = Ok ((exList, [], []), None).
Proof. split; [exact exList_good|]. split; [|split]; [eexists; eexists; vm_compute; reflexivity..|vm_compute; reflexivity]. Qed.

(** C18.  Adhoc expire refuses exactly the newest full backup when no older full backup of the same cluster comes next; otherwise it
    removes exactly the backup and what depends on it, and a full backup of the newest full backup's cluster remains. *)
Theorem C18_adhoc : forall dry l b, goodHistory l -> In b l ->
  (lastFullOfCluster l b -> expireAdhoc dry l (bkLabel b) = Err EBackupSetInvalid) /\
  (~ lastFullOfCluster l b -> exists l' o e, expireAdhoc dry l (bkLabel b) = Ok (l', o, e) /\
     (forall c, In c l' <-> In c l /\ ~ dependsOn l (bkLabel c) (bkLabel b)) /\
     (forall f, newestFull l f -> exists g, In g l' /\ labelFull (bkLabel g) = true /\ bkPgId g = bkPgId f)).
Proof.
  intros dry l b Hg Hb. destruct (expireAdhoc_spec dry l b Hg Hb) as [H1 H2]. split; [exact H1|]. intros H.
  destruct (H2 H) as (l' & o & e & A & _ & _ & B & C). exists l', o, e. auto.
Qed.
Print Assumptions C18_adhoc.

(** C18.  The "latest" link is moved, to the newest remaining backup, exactly when the newest backup was removed. *)
Theorem C18_latest_link : forall l lab l' o e, ordered l -> expireAdhoc false l lab = Ok (l', o, e) ->
  forall x, In (LinkLatest x) o <-> exists pre b pre' b', l = pre ++ [b] /\ l' = pre' ++ [b'] /\ ~ In b l' /\ x = bkLabel b'.
Proof. exact adhoc_latest. Qed.
Print Assumptions C18_latest_link.

Example C18_nontrivial :
  lastFullOfCluster (firstn 3 exList) (mkBackup (exF 1) None 1 100 None None) /\
  ~ lastFullOfCluster exList (mkBackup (exF 4) None 1 400 None None) /\
  exists o e, expireAdhoc false exList (exF 4) = Ok (firstn 3 exList, o, e).
Proof.
  split; [|split].
  - split; [split; [now left|split; [vm_compute; reflexivity|]]|].
    + intros c Hc Hf. cbn in Hc. repeat (destruct Hc as [<-|Hc]; [try (vm_compute in Hf; discriminate); apply sle_refl|]). destruct Hc.
    + intros c (Hc & Hf & Hne & _). exfalso. cbn in Hc. repeat (destruct Hc as [<-|Hc]; [vm_compute in Hf; try discriminate; apply Hne; reflexivity|]). destruct Hc.
  - intros [_ H]. apply (H (mkBackup (exF 1) None 1 100 None None)); [|reflexivity].
    split; [now left|]. split; [vm_compute; reflexivity|]. split; [discriminate|].
    intros c Hc Hf Hne. cbn in Hc. repeat (destruct Hc as [<-|Hc]; [vm_compute in Hf; try discriminate; try apply sle_refl; exfalso; now apply Hne|]). destruct Hc.
  - eexists; eexists; vm_compute; reflexivity.
Qed.

(** C21.  Reconstruction of backup.info lists exactly the usable backups: those whose manifest is on storage, that were listed or belong
    to a known cluster, and whose prior is usable.  Listed entries are kept as they are, others are built from the manifest. *)
Theorem C21_reconstruct : forall s hist l, goodStore s -> goodHistory l -> agrees s l ->
  let r := reconstruct s hist l in
  goodHistory r /\
  (forall x, In x (map bkLabel r) <-> usable s hist l x) /\
  (forall b, In b r -> In b l \/
     (~ In (bkLabel b) (map bkLabel l) /\ exists m, manifestOf s (bkLabel b) = Some m /\ b = dataFromManifest m)).
Proof.
  intros s hist l Hg (Ho & Hc & Hw) Ha. destruct (reconstruct_spec s hist l Hg Ho Hc Ha) as (A & B & C & _ & D). cbn zeta.
  split; [|auto]. split; [exact A|]. split; [exact B|]. now apply reconstruct_wellLabelled.
Qed.
Print Assumptions C21_reconstruct.

(** C21.  The entries that are dropped are exactly those without manifest and those that depend on them. *)
Theorem C21_dropped : forall s hist l b, goodStore s -> goodHistory l -> agrees s l -> In b l ->
  (In b (reconstruct s hist l) <->
   ~ exists y, In y (map bkLabel l) /\ manifestOf s y = None /\ dependsOn l (bkLabel b) y).
Proof.
  intros s hist l b Hg (Ho & Hc & Hw) Ha Hb. destruct (reconstruct_spec s hist l Hg Ho Hc Ha) as (A & B & C & D & E).
  destruct (drop_spec s l Hg Ho) as [_ Hsv]. split.
  - intros Hr (y & H1 & H2 & H3).
    assert (Hu : usable s hist l (bkLabel b)) by (apply E; now apply in_map).
    pose proof (usable_l1 s hist l Hg Ho Hc Ha _ Hu b Hb eq_refl) as Hl1. apply Hsv in Hl1. apply (proj2 Hl1). exists y. auto.
  - intros Hn. apply D, Hsv. split; [exact Hb|]. intros (y & [H1 H2] & H3). apply Hn. eauto.
Qed.
Print Assumptions C21_dropped.

Definition exManifest (b : backup) : manifest := mkManifest (match bkPrior b with None => true | _ => false end) b (bkPrior b) 77 15.
Definition exDir (b : backup) : backupDir := mkDir (bkLabel b) (Some (exManifest b)) (Some (exManifest b)).
(** The manifest of the first diff is missing; the last two backups are on storage but not listed. *)
Definition exStore : store :=
  mkStore (map exDir (firstn 1 exList) ++ [mkDir (exD 1 2) None None] ++ map exDir (skipn 2 exList)) (firstn 3 exList) (firstn 3 exList).
Definition exHist : list pgHist := [mkPg 1 77 15].

Lemma exStore_good : goodStore exStore.
Proof.
  split.
  - change (NoDup [exF 1; exD 1 2; exI 1 3; exF 4; exD 4 5]).
    repeat (constructor; [cbn [In]; intros H; repeat (destruct H as [H|H]; [discriminate|]); exact H|]). constructor.
  - intros d m Hd Hm. destruct Hd as [<-|[<-|[<-|[<-|[<-|[]]]]]]; try discriminate Hm; injection Hm as <-;
      (split; [reflexivity|]; split; [vm_compute; reflexivity|]; cbn [mfPrior exManifest bkPrior]; vm_compute; auto).
Qed.
Lemma exStore_ok : repoOk exStore.
Proof.
  split; [exact exStore_good|]. split.
  - change (stInfo exStore) with (firstn 3 exList). destruct exList_good as ((A & B) & C & D). split; [split|split].
    + change (StronglySorted slt [exF 1; exD 1 2; exI 1 3]). repeat (constructor; [|repeat constructor; vm_compute; reflexivity]). constructor.
    + intros b p Hb. apply B. rewrite <- (firstn_skipn 3 exList). apply in_or_app. now left.
    + intros b p Hb Hp. destruct Hb as [<-|[<-|[<-|[]]]]; try discriminate Hp; injection Hp as <-.
      * exists (mkBackup (exF 1) None 1 100 None None). split; [left|]; reflexivity.
      * exists (mkBackup (exD 1 2) (Some (exF 1)) 1 200 None None). split; [right; left|]; reflexivity.
    + intros b Hb. apply D. rewrite <- (firstn_skipn 3 exList). apply in_or_app. now left.
  - intros b m Hb Hm. destruct Hb as [<-|[<-|[<-|[]]]]; vm_compute in Hm; try discriminate Hm; injection Hm as <-; reflexivity.
Qed.

Example C21_nontrivial : goodStore exStore /\ goodHistory (stInfo exStore) /\ agrees exStore (stInfo exStore) /\
  labels (reconstruct exStore exHist (stInfo exStore)) = [exF 1; exF 4; exD 4 5].
Proof. destruct exStore_ok as (A & B & C). repeat (split; [assumption|]). vm_compute. reflexivity. Qed.

(** C20.  Stop expire after any number of its storage operations (manifests removed one by one, backup.info rewritten, directories
    removed): what the next command loads is a well formed history of backups that were there before, each with its manifest, and it
    contains every backup the completed command would keep.  The assumptions on the repository hold again, so the argument repeats for
    any number of interrupted runs. *)
Theorem C20_interrupted_expire : forall c s hist os l1, repoOk s -> expireOps c s hist = Ok (os, l1) ->
  forall p rest, os = p ++ rest ->
    let s' := applyOps s p in
    let r := reconstruct s' hist (stInfo s') in
    repoOk s' /\ goodHistory r /\
    (forall b, In b r -> manifestOf s' (bkLabel b) <> None) /\
    (forall b, In b r -> In b (reconstruct s hist (stInfo s))) /\
    (cDry c = false -> forall b, In b l1 -> In b r).
Proof.
  intros c s hist os l1 Hok H p rest E. destruct (expireOps_crash c s hist os l1 Hok H) as (_ & _ & _ & D).
  destruct (D p (ex_intro _ rest E)) as (A1 & A2 & A3 & A4 & A5 & _). cbn zeta. auto.
Qed.
Print Assumptions C20_interrupted_expire.

(** C20.  A completed run: what is loaded afterwards is exactly the list the command computed; nothing of a kept backup was removed;
    a dry run performs no operation. *)
Theorem C20_completed_expire : forall c s hist os l1, repoOk s -> expireOps c s hist = Ok (os, l1) ->
  goodHistory l1 /\
  (forall b, In b l1 -> In b (reconstruct s hist (stInfo s))) /\
  (forall x, In (RmManifest x) os \/ In (RmDir x) os -> ~ In x (map bkLabel l1)) /\
  (cDry c = false -> reconstruct (applyOps s os) hist (stInfo (applyOps s os)) = l1) /\
  (cDry c = true -> os = []).
Proof.
  intros c s hist os l1 Hok H. destruct (expireOps_crash c s hist os l1 Hok H) as (A & B & C & D).
  destruct (D os (prefixOf_refl os)) as (_ & _ & _ & _ & _ & D6).
  split; [exact A|]. split; [exact B|]. split; [exact C|]. split; [auto|]. intros Hd. unfold expireOps in H. rewrite Hd in H.
  destruct (expireInfo c _) as [[[[? ?] ?] ?]|k|]; cbn [bind] in H; try discriminate. now injection H as <- _.
Qed.
Print Assumptions C20_completed_expire.

Example C20_nontrivial : repoOk exStore /\
  exists os l1, expireOps (mkCfg false None false false (Some 1%nat) None 0) exStore exHist = Ok (os, l1) /\
    labels l1 = [exF 4; exD 4 5] /\ In (RmManifest (exF 1)) os /\ In (RmDir (exI 1 3)) os /\ (6 < length os)%nat.
Proof.
  split; [exact exStore_ok|]. eexists. eexists. split; [vm_compute; reflexivity|]. split; [vm_compute; reflexivity|].
  split; [cbn; tauto|]. split; [cbn; tauto|cbn; lia].
Qed.

(** C22.  Directory clean up removes exactly the backup directories that are not listed and are not the resumable one. *)
Theorem C22_directory_cleanup : forall s l adhoc x, goodStore s ->
  (In x (removeExpired s l adhoc) <->
   labelAny x = true /\ In x (map dLabel (stDirs s)) /\ ~ In x (map bkLabel l) /\ ~ resumable s l adhoc x).
Proof. exact removeExpired_spec. Qed.
Print Assumptions C22_directory_cleanup.

Definition exStore2 : store := mkStore (map exDir exList ++ [mkDir (exI 4 6) None (Some (exManifest (mkBackup (exI 4 6) (Some (exD 4 5)) 1 0 None None)))]) exList exList.
Example C22_nontrivial :
  removeExpired exStore2 exList None = [] /\ removeExpired exStore2 (firstn 4 exList) (Some (exD 4 5)) = [exI 4 6; exD 4 5] /\
  removeExpired exStore2 (firstn 4 exList) None = [exD 4 5].
Proof. repeat split; vm_compute; reflexivity. Qed.
