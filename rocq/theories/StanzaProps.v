(** C81: creating and upgrading a stanza. *)
From Verif Require Import Base Str ArchiveIdModel InfoModel StanzaModel StanzaSpec StanzaProof.
Open Scope Z_scope.

(** A stanza is created or found valid exactly if the repository is blank or has two infos that match each other and the cluster. *)
Theorem C81_create_iff v s ka kb r : (exists ws, createRepo v s ka kb r = Ok ws) <-> blank r \/ valid r v s.
Proof.
  split; [intros (ws & H); eapply create_inv; exact H|]. intros [B|V]; eexists; [now apply create_blank|now apply create_valid].
Qed.
Print Assumptions C81_create_iff.
(** In a blank repository all four files are written; both infos are the cluster alone, with id 1. *)
Theorem C81_create_new v s ka kb r : blank r -> exists ws, createRepo v s ka kb r = Ok ws /\
  let i := mkInfoPg [mkPg 1 v s] 0 in
  puts r ws = mkRepo (Some (Good i ka)) (Some (Good i ka)) (Some (Good i kb)) (Some (Good i kb)) [] [].
Proof.
  intros B. rewrite (create_blank _ _ _ _ _ B). eexists. split; [reflexivity|]. destruct r, B as ((A & B & C & D) & E & F). cbn in *. subst. reflexivity.
Qed.
Print Assumptions C81_create_new.
(** Afterwards no file is missing and the stanza is valid, and nothing else changed. *)
Theorem C81_create_valid v s ka kb r ws : createRepo v s ka kb r = Ok ws ->
  valid (puts r ws) v s /\ (forall f, getF (puts r ws) f <> None) /\ rArchiveList (puts r ws) = rArchiveList r /\ rBackupList (puts r ws) = rBackupList r.
Proof.
  intros H. destruct (create_inv _ _ _ _ _ _ H) as [B|V].
  - destruct (C81_create_new v s ka kb r B) as (ws' & E & P). rewrite H in E. injection E as <-. cbv zeta in P. rewrite P. destruct B as (_ & E & F).
    split; [|split; [now intros []|now rewrite E, F]].
    exists (mkInfoPg [mkPg 1 v s] 0), ka, (mkInfoPg [mkPg 1 v s] 0), kb, (mkPg 1 v s), (mkPg 1 v s). unfold archiveIs, backupIs, holds, current. cbn. repeat split; auto.
  - rewrite (create_valid _ _ _ _ _ V) in H. injection H as <-. pose proof (valid_some _ _ _ V) as S. rewrite (puts_copy _ S). split; [now apply filled_valid|].
    split; [|split; reflexivity]. destruct r as [[] [] [] [] al bl]; cbn in S; try discriminate; now intros [].
Qed.
Print Assumptions C81_create_valid.
(** No file is ever overwritten, even if the command is killed. *)
Theorem C81_create_keep v s ka kb r ws k f x : createRepo v s ka kb r = Ok ws -> getF r f = Some x -> getF (puts r (firstn k ws)) f = Some x.
Proof.
  intros H G. destruct (create_inv _ _ _ _ _ _ H) as [((A & B & C & D) & _)|V].
  - destruct f; cbn in G; congruence.
  - rewrite (create_valid _ _ _ _ _ V) in H. injection H as <-. destruct r as [[] [] [] [] al bl], f; cbn in G; try discriminate; cbn;
      destruct k as [|[|k]]; cbn; rewrite ?firstn_nil; cbn; exact G.
Qed.
Print Assumptions C81_create_keep.
(** In a valid stanza a missing file is a copy of the other one. *)
Theorem C81_create_copy v s ka kb r : valid r v s -> exists ws, createRepo v s ka kb r = Ok ws /\
  (rArchive r = None -> rArchive (puts r ws) = rArchiveCopy r) /\ (rArchiveCopy r = None -> rArchiveCopy (puts r ws) = rArchive r) /\
  (rBackup r = None -> rBackup (puts r ws) = rBackupCopy r) /\ (rBackupCopy r = None -> rBackupCopy (puts r ws) = rBackup r).
Proof.
  intros V. rewrite (create_valid _ _ _ _ _ V). eexists. split; [reflexivity|]. rewrite (puts_copy _ (valid_some _ _ _ V)). cbn. repeat split; intros ->; reflexivity.
Qed.
Print Assumptions C81_create_copy.
(** Doing it again does nothing. *)
Theorem C81_create_again v s ka kb r ws : createRepo v s ka kb r = Ok ws -> forall ka' kb', createRepo v s ka' kb' (puts r ws) = Ok [].
Proof.
  intros H ka' kb'. destruct (C81_create_valid _ _ _ _ _ _ H) as (V & N & _). rewrite (create_valid _ _ _ _ _ V). f_equal.
  unfold copyMissing. destruct (getF (puts r ws) FArchive) eqn:A, (getF (puts r ws) FArchiveCopy) eqn:B, (getF (puts r ws) FBackup) eqn:C, (getF (puts r ws) FBackupCopy) eqn:D;
    try reflexivity; exfalso; eapply N; eassumption.
Qed.
Print Assumptions C81_create_again.
(** The errors: a directory that is not empty, an info without the other, and infos that do not load or do not match. *)
Theorem C81_create_errors v s ka kb r e : createRepo v s ka kb r = Err e ->
  noInfo r /\ e = EPathNotEmpty /\ (rArchiveList r <> [] \/ rBackupList r <> []) \/
  ~ noInfo r /\ (rArchive r = None /\ rArchiveCopy r = None \/ rBackup r = None /\ rBackupCopy r = None) /\ e = EFileMissing \/
  ~ (rArchive r = None /\ rArchiveCopy r = None) /\ ~ (rBackup r = None /\ rBackupCopy r = None) /\ ~ valid r v s.
Proof.
  intros H. destruct (rArchive r) eqn:A, (rArchiveCopy r) eqn:B, (rBackup r) eqn:C, (rBackupCopy r) eqn:D;
    try (right; right; split; [intros (? & ?); discriminate|split; [intros (? & ?); discriminate|intros V; rewrite (create_valid _ _ _ _ _ V) in H; discriminate]]).
  all: unfold createRepo in H; rewrite A, B, C, D in H; cbn in H.
  all: try (right; left; split; [intros (? & ? & ? & ?); congruence|split; [auto|congruence]]).
  left. split; [repeat split; assumption|]. destruct (rArchiveList r) eqn:E, (rBackupList r) eqn:F; cbn in H; try discriminate; injection H as <-; split; auto; [right|left|left]; discriminate.
Qed.
Print Assumptions C81_create_errors.
Theorem C81_create_ub v s ka kb r : createRepo v s ka kb r <> UB.
Proof.
  unfold createRepo. destruct (_ && _ && _ && _); [destruct (_ || _); discriminate|]. destruct (_ && _); [|discriminate].
  unfold checkStanzaInfoPg. pose proof (load_ub (rArchive r) (rArchiveCopy r)). pose proof (load_ub (rBackup r) (rBackupCopy r)).
  destruct (loadF (rArchive r) (rArchiveCopy r)) as [[ai ar]|e|]; cbn [bind fst]; try congruence.
  pose proof (cur_ub ai). destruct (curPg ai) as [a|e|]; cbn [bind]; try congruence.
  destruct (loadF (rBackup r) (rBackupCopy r)) as [[bi br]|e|]; cbn [bind fst]; try congruence.
  pose proof (cur_ub bi). destruct (curPg bi) as [b|e|]; cbn [bind]; try congruence.
  destruct (check_res a b) as [->| ->]; cbn [bind]; [|discriminate]. destruct (_ || _); discriminate.
Qed.
Print Assumptions C81_create_ub.
(** Killed while it copies missing files, the next create completes it: the repository is then the same as without the kill. *)
Theorem C81_repair_cut v s ka kb r k : valid r v s -> exists ws ws', createRepo v s ka kb r = Ok ws /\
  createRepo v s ka kb (puts r (firstn k ws)) = Ok ws' /\ puts (puts r (firstn k ws)) ws' = puts r ws.
Proof.
  intros V. rewrite (create_valid _ _ _ _ _ V). eexists. destruct (copy_prefix r k v s V) as (V' & F). eexists. split; [reflexivity|].
  rewrite (create_valid _ _ _ _ _ V'). split; [reflexivity|]. rewrite (puts_copy _ (valid_some _ _ _ V')), (puts_copy _ (valid_some _ _ _ V)). exact F.
Qed.
Print Assumptions C81_repair_cut.
(** Killed while it creates, the next create succeeds exactly if nothing or at least backup.info was written; else it fails with a missing file. *)
Theorem C81_create_cut v s ka kb ka' kb' r k : blank r -> exists ws, createRepo v s ka kb r = Ok ws /\
  ((k = 0 \/ 3 <= k)%nat -> exists ws', createRepo v s ka' kb' (puts r (firstn k ws)) = Ok ws' /\ valid (puts (puts r (firstn k ws)) ws') v s) /\
  ((k = 1 \/ k = 2)%nat -> createRepo v s ka' kb' (puts r (firstn k ws)) = Err EFileMissing).
Proof.
  intros B. exists (saveArchive (mkInfoPg [mkPg 1 v s] 0) ka ++ saveBackup (mkInfoPg [mkPg 1 v s] 0) kb). split; [now apply create_blank|]. split.
  - intros K. assert (E : exists ws', createRepo v s ka' kb' (puts r (firstn k (saveArchive (mkInfoPg [mkPg 1 v s] 0) ka ++ saveBackup (mkInfoPg [mkPg 1 v s] 0) kb))) = Ok ws').
    { apply C81_create_iff. destruct K as [->|K]; [now left|right]. destruct k as [|[|[|k]]]; try lia.
      exists (mkInfoPg [mkPg 1 v s] 0), ka, (mkInfoPg [mkPg 1 v s] 0), kb, (mkPg 1 v s), (mkPg 1 v s). unfold archiveIs, backupIs, holds, current.
      destruct k; cbn; rewrite ?firstn_nil; cbn; repeat split; auto. }
    destruct E as (ws' & E). exists ws'. split; [exact E|]. now apply (C81_create_valid _ _ _ _ _ _ E).
  - destruct B as ((A & B & C & D) & _). destruct r. cbn in A, B, C, D. subst. intros [->| ->]; reflexivity.
Qed.
Print Assumptions C81_create_cut.
(** So a create that is killed at a bad time is not completed by another one. *)
Theorem C81_create_cut_refuted : exists r k ws, blank r /\ createRepo 160000 7 [] [] r = Ok ws /\ createRepo 160000 7 [] [] (puts r (firstn k ws)) = Err EFileMissing.
Proof.
  exists (mkRepo None None None None [] []), 1%nat. eexists. split; [repeat split|]. split; reflexivity.
Qed.
Print Assumptions C81_create_cut_refuted.
Example C81_nontrivial :
  let i := mkInfoPg [mkPg 1 160000 7] 0 in
  blank (mkRepo None None None None [] []) /\ valid (mkRepo None (Some (Good i [1])) (Some (Bad EChecksum)) (Some (Good i [2])) [] []) 160000 7 /\
  createRepo 160000 7 [8] [9] (mkRepo None None None None [] []) = Ok (saveArchive i [8] ++ saveBackup i [9]) /\
  createRepo 160000 7 [8] [9] (mkRepo None (Some (Good i [1])) (Some (Bad EChecksum)) (Some (Good i [2])) [] []) = Ok [(FArchive, Good i [1])] /\
  createRepo 160000 8 [8] [9] (mkRepo None (Some (Good i [1])) (Some (Bad EChecksum)) (Some (Good i [2])) [] []) = Err EOther.
Proof.
  cbv zeta. split; [repeat split|]. split; [|repeat split]. apply checkPg_spec. reflexivity.
Qed.

(** ** Upgrade *)
(** An upgrade succeeds exactly if both infos load and their ids will be the same; each then has the cluster on top of its history, and nothing else changed. *)
Theorem C81_upgrade_iff v s r : (exists ws, upgradeRepo v s r = Ok ws) <->
  exists ai ar bi br ai' bi' a' b', archiveIs r ai ar /\ backupIs r bi br /\ upgraded v s ai ai' /\ upgraded v s bi bi' /\ current ai' a' /\ current bi' b' /\ pdId a' = pdId b'.
Proof.
  split.
  - intros (ws & H). destruct (upgrade_inv _ _ _ _ H) as (ai & ar & bi & br & a & b & LA & LB & CA & CB). rewrite (upgrade_eq _ _ _ _ _ _ _ _ _ LA LB CA CB) in H.
    destruct (Z.eqb_spec (pdId (afterD v s a)) (pdId (afterD v s b))) as [E|]; [|discriminate]. exists ai, ar, bi, br, (after v s ai a), (after v s bi b), (afterD v s a), (afterD v s b).
    repeat (split; [first [assumption|now apply after_upgraded|now apply after_cur]|]). exact E.
  - intros (ai & ar & bi & br & ai' & bi' & a' & b' & LA & LB & UA & UB & CA' & CB' & E). destruct UA as (a & CA & UA). destruct UB as (b & CB & UB).
    assert (UA0 : upgraded v s ai ai') by (exists a; auto). assert (UB0 : upgraded v s bi bi') by (exists b; auto).
    apply (upgraded_after _ _ _ _ _ CA) in UA0. apply (upgraded_after _ _ _ _ _ CB) in UB0. subst ai' bi'.
    rewrite (upgrade_eq _ _ _ _ _ _ _ _ _ LA LB CA CB). pose proof (after_cur v s _ _ CA) as A1. pose proof (after_cur v s _ _ CB) as B1. unfold current in *.
    rewrite A1 in CA'. rewrite B1 in CB'. injection CA' as <-. injection CB' as <-. apply Z.eqb_eq in E. rewrite E. eauto.
Qed.
Print Assumptions C81_upgrade_iff.
Theorem C81_upgrade_ok v s r ws : upgradeRepo v s r = Ok ws -> valid (puts r ws) v s /\
  (forall i x, archiveIs r i x -> exists j, upgraded v s i j /\ archiveIs (puts r ws) j x) /\
  (forall i x, backupIs r i x -> exists j, upgraded v s i j /\ backupIs (puts r ws) j x) /\
  rArchiveList (puts r ws) = rArchiveList r /\ rBackupList (puts r ws) = rBackupList r.
Proof.
  intros H. destruct (upgrade_inv _ _ _ _ H) as (ai & ar & bi & br & a & b & LA & LB & CA & CB). rewrite (upgrade_eq _ _ _ _ _ _ _ _ _ LA LB CA CB) in H.
  destruct (Z.eqb_spec (pdId (afterD v s a)) (pdId (afterD v s b))) as [E|]; [|discriminate]. injection H as <-.
  destruct (up_prefix r v s ai ar bi br a b (length (upWrites v s ai ar a bi br b)) LA LB) as (pa & pb & HA & HB & T). destruct (T (Nat.le_refl _)) as (-> & ->). rewrite firstn_all in HA, HB.
  destruct (afterD_v v s a) as (V1 & S1), (afterD_v v s b) as (V2 & S2).
  split; [|split; [|split]].
  - exists (after v s ai a), ar, (after v s bi b), br, (afterD v s a), (afterD v s b). repeat (split; [first [assumption|now apply after_cur]|]). exact S2.
  - intros i x L. destruct (load_fun _ _ _ _ _ _ L LA) as (-> & ->). exists (after v s ai a). split; [now apply after_upgraded|exact HA].
  - intros i x L. destruct (load_fun _ _ _ _ _ _ L LB) as (-> & ->). exists (after v s bi b). split; [now apply after_upgraded|exact HB].
  - unfold upWrites. destruct (newer v s a), (newer v s b); split; reflexivity.
Qed.
Print Assumptions C81_upgrade_ok.
(** A stanza that is valid for the cluster is left alone, so a second upgrade does nothing. *)
Theorem C81_upgrade_valid v s r : valid r v s -> upgradeRepo v s r = Ok [].
Proof.
  intros (ai & ar & bi & br & a & b & LA & LB & CA & CB & I & V1 & V2 & S1 & S2). rewrite (upgrade_eq _ _ _ _ _ _ _ _ _ LA LB CA CB).
  unfold upWrites, afterD. assert (N1 : newer v s a = false) by now apply newer_false. assert (N2 : newer v s b = false) by now apply newer_false. rewrite N1, N2.
  apply Z.eqb_eq in I. rewrite I. reflexivity.
Qed.
Print Assumptions C81_upgrade_valid.
(** A file that is written is written together with its copy, which has the same content. *)
Theorem C81_upgrade_writes v s r ws : upgradeRepo v s r = Ok ws ->
  ((rArchive (puts r ws), rArchiveCopy (puts r ws)) = (rArchive r, rArchiveCopy r) \/ rArchive (puts r ws) = rArchiveCopy (puts r ws)) /\
  ((rBackup (puts r ws), rBackupCopy (puts r ws)) = (rBackup r, rBackupCopy r) \/ rBackup (puts r ws) = rBackupCopy (puts r ws)).
Proof.
  intros H. destruct (upgrade_inv _ _ _ _ H) as (ai & ar & bi & br & a & b & LA & LB & CA & CB). rewrite (upgrade_eq _ _ _ _ _ _ _ _ _ LA LB CA CB) in H.
  destruct (_ =? _); [|discriminate]. injection H as <-. unfold upWrites. destruct (newer v s a), (newer v s b); cbn; auto.
Qed.
Print Assumptions C81_upgrade_writes.
(** Killed at any point, the next upgrade succeeds, and both infos are then the same as without the kill. *)
Theorem C81_upgrade_cut v s r ws k : upgradeRepo v s r = Ok ws -> exists ws', upgradeRepo v s (puts r (firstn k ws)) = Ok ws' /\
  (forall i x, archiveIs (puts r ws) i x -> archiveIs (puts (puts r (firstn k ws)) ws') i x) /\
  (forall i x, backupIs (puts r ws) i x -> backupIs (puts (puts r (firstn k ws)) ws') i x).
Proof.
  intros H. destruct (upgrade_inv _ _ _ _ H) as (ai & ar & bi & br & a & b & LA & LB & CA & CB). rewrite (upgrade_eq _ _ _ _ _ _ _ _ _ LA LB CA CB) in H.
  destruct (Z.eqb_spec (pdId (afterD v s a)) (pdId (afterD v s b))) as [E|]; [|discriminate]. injection H as <-.
  destruct (up_prefix r v s ai ar bi br a b (length (upWrites v s ai ar a bi br b)) LA LB) as (qa & qb & FA & FB & T). destruct (T (Nat.le_refl _)) as (-> & ->). rewrite firstn_all in FA, FB. clear T.
  destruct (up_prefix r v s ai ar bi br a b k LA LB) as (pa & pb & HA & HB & _).
  set (m := puts r (firstn k _)) in *.
  assert (CA2 : current (if pa then after v s ai a else ai) (if pa then afterD v s a else a)) by (destruct pa; [now apply after_cur|exact CA]).
  assert (CB2 : current (if pb then after v s bi b else bi) (if pb then afterD v s b else b)) by (destruct pb; [now apply after_cur|exact CB]).
  rewrite (upgrade_eq m _ _ _ _ _ _ _ _ HA HB CA2 CB2).
  assert (EA : afterD v s (if pa then afterD v s a else a) = afterD v s a) by (destruct pa; [apply afterD_after|reflexivity]).
  assert (EB : afterD v s (if pb then afterD v s b else b) = afterD v s b) by (destruct pb; [apply afterD_after|reflexivity]).
  rewrite EA, EB. pose proof E as E'. apply Z.eqb_eq in E'. rewrite E'. eexists. split; [reflexivity|].
  match goal with |- context [puts m ?w] => destruct (up_prefix m v s _ _ _ _ (if pa then afterD v s a else a) (if pb then afterD v s b else b) (length w) HA HB) as (qa & qb & GA & GB & T) end.
  destruct (T (Nat.le_refl _)) as (-> & ->). rewrite firstn_all in GA, GB.
  assert (XA : after v s (if pa then after v s ai a else ai) (if pa then afterD v s a else a) = after v s ai a) by (destruct pa; [now apply after_after|reflexivity]).
  assert (XB : after v s (if pb then after v s bi b else bi) (if pb then afterD v s b else b) = after v s bi b) by (destruct pb; [now apply after_after|reflexivity]).
  split; intros i x L.
  - destruct (load_fun _ _ _ _ _ _ L FA) as (-> & ->). rewrite XA in GA. exact GA.
  - destruct (load_fun _ _ _ _ _ _ L FB) as (-> & ->). rewrite XB in GB. exact GB.
Qed.
Print Assumptions C81_upgrade_cut.
(** But a copy can be left behind: after a kill between a file and its copy neither command writes the copy again, and if the file is lost the stanza is not valid. *)
Theorem C81_copy_refuted : exists r ws k ws2 r2 v s, valid r 150000 6 /\ upgradeRepo v s r = Ok ws /\
  upgradeRepo v s (puts r (firstn k ws)) = Ok ws2 /\ r2 = puts (puts r (firstn k ws)) ws2 /\
  valid r2 v s /\ upgradeRepo v s r2 = Ok [] /\ createRepo v s [] [] r2 = Ok [] /\ rArchiveCopy r2 <> rArchive r2 /\
  ~ valid (mkRepo (Some (Bad EChecksum)) (rArchiveCopy r2) (rBackup r2) (rBackupCopy r2) [] []) v s.
Proof.
  set (i := mkInfoPg [mkPg 1 150000 6] 0). exists (mkRepo (Some (Good i [])) (Some (Good i [])) (Some (Good i [])) (Some (Good i [])) [] []). do 1 eexists. exists 1%nat. do 2 eexists. exists 160000, 7.
  split; [apply checkPg_spec; reflexivity|]. split; [reflexivity|]. split; [reflexivity|]. split; [reflexivity|]. split; [apply checkPg_spec; reflexivity|].
  split; [reflexivity|]. split; [reflexivity|]. split; [discriminate|]. intros V. apply checkPg_spec in V. discriminate.
Qed.
Print Assumptions C81_copy_refuted.
Example C81_upgrade_nontrivial :
  let i := mkInfoPg [mkPg 1 150000 6] 0 in let j := mkInfoPg [mkPg 2 160000 7; mkPg 1 150000 6] 0 in
  upgradeRepo 160000 7 (mkRepo (Some (Good j [1])) (Some (Good i [1])) (Some (Bad EChecksum)) (Some (Good i [2])) [] []) = Ok (saveBackup j [2]) /\
  upgradeRepo 170000 7 (mkRepo (Some (Good j [1])) (Some (Good i [1])) None (Some (Good i [2])) [] []) = Err EOther.
Proof. repeat split. Qed.

(** ** More repositories *)
(** Both commands do the repositories in order up to the first that fails: those before are done, it and those after it are as they were. *)
Theorem C81_create_repos v s keys rs out e : cmdStanzaCreate false v s keys rs = (out, e) ->
  exists n, length out = length rs /\ (n <= length rs)%nat /\
    (forall k r, nth_error rs k = Some r -> (k < n)%nat -> (blank r \/ valid r v s) /\ exists r', nth_error out k = Some r' /\ valid r' v s) /\
    (forall k, (n <= k)%nat -> nth_error out k = nth_error rs k) /\
    (e = Ok tt /\ n = length rs \/ e <> Ok tt /\ exists r, nth_error rs n = Some r /\ ~ blank r /\ ~ valid r v s).
Proof.
  intros H. unfold cmdStanzaCreate in H. destruct (each_spec _ _ _ _ _ H) as (n & L & N & A & B & C). exists n. repeat (split; [assumption|]). split; [|split; [exact B|]].
  - intros k r R K. destruct (A k r R K) as (ws & W & O). split; [eapply create_inv; exact W|]. exists (puts r ws). split; [exact O|]. now apply (C81_create_valid _ _ _ _ _ _ W).
  - destruct C as [C|(r & R & C)]; [left; exact C|right]. destruct (createRepo v s _ _ r) as [ws|x|] eqn:F; [destruct C| |]; (split; [congruence|]; exists r; split; [exact R|]);
      (split; intros X; [rewrite (create_blank _ _ _ _ _ X) in F|rewrite (create_valid _ _ _ _ _ X) in F]; discriminate).
Qed.
Print Assumptions C81_create_repos.
Theorem C81_upgrade_repos v s rs out e : cmdStanzaUpgrade false v s rs = (out, e) ->
  exists n, length out = length rs /\ (n <= length rs)%nat /\
    (forall k r, nth_error rs k = Some r -> (k < n)%nat -> exists r', nth_error out k = Some r' /\ valid r' v s) /\
    (forall k, (n <= k)%nat -> nth_error out k = nth_error rs k) /\
    (e = Ok tt /\ n = length rs \/ e <> Ok tt /\ exists r, nth_error rs n = Some r /\ ~ valid r v s).
Proof.
  intros H. unfold cmdStanzaUpgrade in H. destruct (each_spec _ _ _ _ _ H) as (n & L & N & A & B & C). exists n. repeat (split; [assumption|]). split; [|split; [exact B|]].
  - intros k r R K. destruct (A k r R K) as (ws & W & O). exists (puts r ws). split; [exact O|]. now apply (C81_upgrade_ok _ _ _ _ W).
  - destruct C as [C|(r & R & C)]; [left; exact C|right]. destruct (upgradeRepo v s r) as [ws|x|] eqn:F; [destruct C| |]; (split; [congruence|]; exists r; split; [exact R|]);
      (intros X; rewrite (C81_upgrade_valid _ _ _ X) in F; discriminate).
Qed.
Print Assumptions C81_upgrade_repos.
(** Neither does anything while the stanza is stopped. *)
Theorem C81_stopped v s keys rs : cmdStanzaCreate true v s keys rs = (rs, Err EOther) /\ cmdStanzaUpgrade true v s rs = (rs, Err EOther).
Proof. split; reflexivity. Qed.
Print Assumptions C81_stopped.
