(** Property C19: expiration of archived WAL. *)
From Verif Require Import Base Str ExpireModel ExpireSpec ExpireProof WalExpireModel WalExpireSpec WalExpireProof.
From Coq Require Import Sorted.
Open Scope Z_scope.

(** C19.  A WAL file is removed exactly when archive expiry is active and its segment precedes the start of the selected backup, is
    outside start..stop of every older backup of the cluster and precedes --archive-expire-before; without a counted backup of the
    cluster, exactly when the cluster is not the current one or the segment precedes --archive-expire-before. *)
Theorem C19_wal_exact : forall c l ah bh current dirs ops h a d f,
  ordered l -> goodArchive ah dirs -> removeExpiredArchive c l ah bh current dirs = Ok ops ->
  In h ah -> In a dirs -> adId a = ahId h -> In d (adWal a) -> isWalPath (wdPath d) = true -> In f (wdFiles d) -> isWalFile f = true ->
  (walRemoved ops (adId a) (wdPath d) f <-> expiryActive c l /\ dirRemoves c l current (phId (ahPg h)) (seg f)).
Proof. exact removeExpiredArchive_spec. Qed.
Print Assumptions C19_wal_exact.

(** C19.  What counts as a backup for archive retention, and what the names are. *)
Theorem C19_counted_labels : forall t l x, In x (retLabels t l) <-> exists b, In b l /\ bkLabel b = x /\
  (labelFull x = true \/ (t <> RetFull /\ labelDiff x = true) \/ (t = RetIncr /\ labelIncr x = true)).
Proof.
  intros t l x. unfold retLabels. rewrite filter_In, in_map_iff. destruct t; cbn [retLabel]; unfold labelFullDiff, labelAny; rewrite ?orb_true_iff.
  all: split; [intros ((b & E & Hb) & H); exists b; intuition congruence|intros (b & Hb & E & H); split; [exists b; auto|intuition congruence]].
Qed.
Print Assumptions C19_counted_labels.
Theorem C19_wal_names : forall s,
  (isWalPath s = true <-> length s = 16%nat /\ forall c, In c s -> 48 <= c <= 70) /\
  (isWalFile s = true <-> exists w r, s = w ++ r /\ length w = 24%nat /\ forall c, In c w -> 48 <= c <= 70) /\
  (isWalHistory s = true <-> exists t x, s = t ++ x :: [104;105;115;116;111;114;121] /\ length t = 8%nat /\ forall c, In c t -> 48 <= c <= 70).
Proof. exact walNames_spec. Qed.
Print Assumptions C19_wal_names.

(** C19.  There is exactly one selected backup for a cluster that has counted backups. *)
Theorem C19_selected_unique : forall t n l pg r r', ordered l -> selected t n l pg r -> selected t n l pg r' -> r = r'.
Proof. intros t n l pg r r' Ho. exact (selected_unique t n l pg Ho r r'). Qed.
Print Assumptions C19_selected_unique.
Theorem C19_selected_exists : forall t n l pg, ordered l -> counted t l pg -> exists r, selected t n l pg r.
Proof.
  intros t n l pg Ho Hc. apply (counted_local t l pg Ho) in Hc.
  destruct (rev (localRetention l (strLstSortDesc (labelList (retLabel t) l)) pg)) as [|x rest] eqn:Er.
  - exfalso. apply Hc. rewrite <- (rev_involutive (localRetention _ _ _)), Er. reflexivity.
  - destruct (selected_code t n l pg Ho x rest Er) as (r & _ & H). eauto.
Qed.
Print Assumptions C19_selected_exists.

(** C19.  When the backups of a cluster start in WAL order, no WAL from start to stop of any listed backup is removed. *)
Theorem C19_backup_wal_kept : forall c l ah bh current dirs ops h a d f b,
  goodHistory l -> clusterChains l -> startsOrdered l -> goodArchive ah dirs -> removeExpiredArchive c l ah bh current dirs = Ok ops ->
  In h ah -> In a dirs -> adId a = ahId h -> In d (adWal a) -> isWalPath (wdPath d) = true -> In f (wdFiles d) -> isWalFile f = true ->
  In b l -> bkPgId b = phId (ahPg h) -> inBackup b (seg f) ->
  ~ walRemoved ops (adId a) (wdPath d) f.
Proof.
  intros c l ah bh current dirs ops h a d f b Hg Hcc Hso Hga H Hh Ha Eid Hd Hp Hf Hwf Hb Eb Hin Hr.
  apply (removeExpiredArchive_spec _ _ _ _ _ _ _ _ _ _ _ (proj1 Hg) Hga H Hh Ha Eid Hd Hp Hf Hwf) in Hr. destruct Hr as [_ Hr].
  rewrite <- Eb in Hr. exact (kept_backup c l current b (seg f) Hg Hcc Hso Hb Hin Hr).
Qed.
Print Assumptions C19_backup_wal_kept.

(** C19.  WAL from the start of the selected backup on is kept, whatever the other backups. *)
Theorem C19_recent_wal_kept : forall c l ah bh current dirs ops h a d f r start,
  ordered l -> goodArchive ah dirs -> removeExpiredArchive c l ah bh current dirs = Ok ops ->
  In h ah -> In a dirs -> adId a = ahId h -> In d (adWal a) -> isWalPath (wdPath d) = true -> In f (wdFiles d) -> isWalFile f = true ->
  selected (wcType c) (wcRetention c) l (phId (ahPg h)) r -> bkArchStart r = Some start -> sle start (seg f) ->
  ~ walRemoved ops (adId a) (wdPath d) f.
Proof.
  intros c l ah bh current dirs ops h a d f r start Ho Hga H Hh Ha Eid Hd Hp Hf Hwf Hsel Es Hle Hr.
  apply (removeExpiredArchive_spec _ _ _ _ _ _ _ _ _ _ _ Ho Hga H Hh Ha Eid Hd Hp Hf Hwf) in Hr. destruct Hr as (_ & Hr & _).
  destruct Hr as (r' & start' & Hsel' & Es' & Hlt & _). { destruct Hsel as (A & B & C & _). exists r. auto. }
  assert (r' = r) by (eapply selected_unique; eauto). subst r'. assert (start' = start) by congruence. subst start'.
  apply sle_not_lt in Hle. contradiction.
Qed.
Print Assumptions C19_recent_wal_kept.

(** C19.  The order of starts is needed: with a backup newer than the selected one that starts before it, WAL of a listed backup is
    removed. *)
Definition rxW (tl n : Z) : str := [48;48;48;48;48;48;48;48+tl] ++ repeat 48 15 ++ [48+n].
Definition rxDate (d : Z) : str := [50;48;50;48;48;49;48;48+d;45;48;48;48;48;48;48;70].
Definition rxB (d : Z) (s e : str) : backup := mkBackup (rxDate d) None 1 100 (Some s) (Some e).
Definition rxDir (files : list str) : archiveDir := mkArchiveDir [65] [mkWalDir (firstn 16 (rxW 1 0)) files] [].
Definition rxHist : archHist := mkArch (mkPg 1 7 150000) [65].
Definition rxBh : list pgHist := [mkPg 1 7 150000].
Theorem C19_unordered_starts_refuted : exists c l ah bh current dirs ops h a d f b,
  goodHistory l /\ clusterChains l /\ goodArchive ah dirs /\ removeExpiredArchive c l ah bh current dirs = Ok ops /\
  In h ah /\ In a dirs /\ adId a = ahId h /\ In d (adWal a) /\ isWalPath (wdPath d) = true /\ In f (wdFiles d) /\ isWalFile f = true /\
  In b l /\ bkPgId b = phId (ahPg h) /\ inBackup b (seg f) /\ walRemoved ops (adId a) (wdPath d) f.
Proof.
  set (l := [rxB 1 (rxW 1 4) (rxW 1 5); rxB 2 (rxW 1 2) (rxW 1 3)]).
  set (a := rxDir [rxW 1 2; rxW 1 3; rxW 1 4; rxW 1 5; rxW 1 6]).
  exists (mkWalCfg 2 RetFull None), l, [rxHist], rxBh, 1, [a], [RmWal [65] (firstn 16 (rxW 1 0)) (rxW 1 2); RmWal [65] (firstn 16 (rxW 1 0)) (rxW 1 3)],
    rxHist, a, (mkWalDir (firstn 16 (rxW 1 0)) [rxW 1 2; rxW 1 3; rxW 1 4; rxW 1 5; rxW 1 6]), (rxW 1 2), (rxB 2 (rxW 1 2) (rxW 1 3)).
  split. { split; [split|split].
    - repeat constructor.
    - intros b p [<-|[<-|[]]]; discriminate.
    - intros b p [<-|[<-|[]]]; discriminate.
    - intros b [<-|[<-|[]]]; reflexivity. }
  split. { intros b c [<-|[<-|[]]] [<-|[<-|[]]] E; reflexivity. }
  split. { split; [repeat constructor; intros []|]. split; [repeat constructor; intros []|]. intros x [<-|[]]. split; [repeat constructor; intros []|].
    intros d f [<-|[]] Hf _. destruct Hf as [<-|[<-|[<-|[<-|[<-|[]]]]]]; reflexivity. }
  split; [vm_compute; reflexivity|]. do 7 (split; [try (now left); reflexivity|]). split; [right; now left|]. split; [reflexivity|]. split.
  - exists (rxW 1 2). split; [reflexivity|]. split; [apply sle_refl|]. intros e E. injection E as <-. vm_compute. discriminate.
  - right. right. now left.
Qed.
Print Assumptions C19_unordered_starts_refuted.

(** C19.  A whole archive directory is removed exactly when its cluster is not the current one and has no counted backup. *)
Theorem C19_archive_dir : forall c l ah bh current dirs ops h a, ordered l -> goodArchive ah dirs ->
  removeExpiredArchive c l ah bh current dirs = Ok ops -> In h ah -> In a dirs -> adId a = ahId h ->
  (In (RmArchive (adId a)) ops <-> expiryActive c l /\ ~ counted (wcType c) l (phId (ahPg h)) /\ current <> phId (ahPg h)).
Proof. exact archive_removed. Qed.
Print Assumptions C19_archive_dir.

(** C19.  A timeline history file is removed exactly when its timeline precedes that of the start of the selected backup. *)
Theorem C19_timeline_history : forall c l ah bh current dirs ops h a f, ordered l -> goodArchive ah dirs ->
  removeExpiredArchive c l ah bh current dirs = Ok ops -> In h ah -> In a dirs -> adId a = ahId h ->
  (In (RmWalHistory (adId a) f) ops <-> expiryActive c l /\ In f (adHistory a) /\ isWalHistory f = true /\
     exists r start, selected (wcType c) (wcRetention c) l (phId (ahPg h)) r /\ bkArchStart r = Some start /\ slt (firstn 8 f) (firstn 8 start)).
Proof. exact history_removed. Qed.
Print Assumptions C19_timeline_history.

(** C19.  Nothing is removed unless the histories of archive.info and backup.info agree; only WAL on storage is removed. *)
Theorem C19_mismatch : forall c l ah bh current dirs ops, removeExpiredArchive c l ah bh current dirs = Ok ops ->
  ops = [] \/ sameHistory ah bh.
Proof. exact removeExpiredArchive_ok. Qed.
Print Assumptions C19_mismatch.
Theorem C19_only_wal : forall c l ah bh current dirs ops o, removeExpiredArchive c l ah bh current dirs = Ok ops -> In o ops ->
  exists a, In a dirs /\
    match o with
    | RmArchive aid => aid = adId a
    | RmWalPath aid p => aid = adId a /\ isWalPath p = true /\ exists d, In d (adWal a) /\ wdPath d = p
    | RmWal aid p f => aid = adId a /\ isWalPath p = true /\ isWalFile f = true /\ exists d, In d (adWal a) /\ wdPath d = p /\ In f (wdFiles d)
    | RmWalHistory aid f => aid = adId a /\ isWalHistory f = true /\ In f (adHistory a)
    end.
Proof. exact removed_exists. Qed.
Print Assumptions C19_only_wal.

(** Three backups, retention 2: WAL 0, 3 goes; 1-2 (the oldest backup), 4 onwards stays. *)
Example C19_nontrivial :
  let l := [rxB 1 (rxW 1 1) (rxW 1 2); rxB 2 (rxW 1 4) (rxW 1 5); rxB 3 (rxW 1 7) (rxW 1 8)] in
  let a := rxDir (map (rxW 1) [0;1;2;3;4;5;6;7;8]) in
  goodHistory l /\ clusterChains l /\ startsOrdered l /\ goodArchive [rxHist] [a] /\ expiryActive (mkWalCfg 2 RetFull None) l /\
  selected RetFull 2 l 1 (rxB 2 (rxW 1 4) (rxW 1 5)) /\
  removeExpiredArchive (mkWalCfg 2 RetFull None) l [rxHist] rxBh 1 [a] =
    Ok [RmWal [65] (firstn 16 (rxW 1 0)) (rxW 1 0); RmWal [65] (firstn 16 (rxW 1 0)) (rxW 1 3)].
Proof.
  cbn zeta. split. { split; [split|split].
    - repeat constructor.
    - intros b p [<-|[<-|[<-|[]]]]; discriminate.
    - intros b p [<-|[<-|[<-|[]]]]; discriminate.
    - intros b [<-|[<-|[<-|[]]]]; reflexivity. }
  split. { intros b c [<-|[<-|[<-|[]]]] [<-|[<-|[<-|[]]]] E; reflexivity. }
  split. { intros b c s s' [<-|[<-|[<-|[]]]] [<-|[<-|[<-|[]]]] E L Es Es'; injection Es as <-; injection Es' as <-; vm_compute in L |- *; congruence. }
  split. { split; [repeat constructor; intros []|]. split; [repeat constructor; intros []|]. intros x [<-|[]]. split; [repeat constructor; intros []|].
    intros d f [<-|[]] Hf _. apply in_map_iff in Hf. destruct Hf as (n & <- & _). reflexivity. }
  split. { split; cbn; [lia|right; vm_compute; lia]. }
  split; [|vm_compute; reflexivity].
  split; [right; now left|]. split; [reflexivity|]. split; [vm_compute; auto|]. left. split; [vm_compute; auto|].
  intros b [<-|[<-|[<-|[]]]] _ Hn; [|apply sle_refl|vm_compute; discriminate].
  exfalso. vm_compute in Hn. destruct Hn as [E|[E|[]]]; discriminate.
Qed.
