From Verif Require Import Base Str ArchiveIdModel InfoModel StanzaModel StanzaSpec.
Open Scope Z_scope.

Lemma load_spec m c i x : loadF m c = Ok (i, x) <-> holds m c i x.
Proof.
  unfold loadF, holds. destruct m as [[j y|e]|], c as [[k z|e']|]; cbn [infoLoad readF]; split; intros H; try discriminate;
    repeat match goal with
    | H : Ok _ = Ok _ |- _ => injection H as ? ?; subst
    | H : _ \/ _ |- _ => destruct H
    | H : _ /\ _ |- _ => destruct H
    | H : Some _ = Some _ |- _ => injection H; intros; subst; clear H
    | H : forall j x, Some (Good ?a ?b) <> Some (Good j x) |- _ => destruct (H a b eq_refl)
    | H : None = Some _ |- _ => discriminate H
    end; try (now left); try (right; split; [intros; discriminate|reflexivity]); try congruence.
Qed.
Lemma load_fun m c i x j y : holds m c i x -> holds m c j y -> i = j /\ x = y.
Proof. intros A B. apply load_spec in A. apply load_spec in B. rewrite A in B. injection B. auto. Qed.
Lemma load_ub m c : loadF m c <> UB.
Proof. unfold loadF. destruct m as [[j y|e]|], c as [[k z|e']|]; cbn [infoLoad readF]; discriminate. Qed.
Lemma cur_spec i d : curPg i = Ok d <-> current i d.
Proof. unfold curPg, current. destruct (nth_error _ _); split; intros; congruence. Qed.
Lemma cur_ub i : curPg i <> UB.
Proof. unfold curPg. destruct (nth_error _ _); discriminate. Qed.

Lemma check_spec a b : checkStanzaInfo a b = Ok tt <-> pdId a = pdId b /\ pdSystemId a = pdSystemId b /\ pdVersion a = pdVersion b.
Proof.
  unfold checkStanzaInfo. destruct (Z.eqb_spec (pdId a) (pdId b)), (Z.eqb_spec (pdSystemId a) (pdSystemId b)), (Z.eqb_spec (pdVersion a) (pdVersion b)); cbn; split; intros; try discriminate; intuition congruence.
Qed.
Lemma check_res a b : checkStanzaInfo a b = Ok tt \/ checkStanzaInfo a b = Err EOther.
Proof. unfold checkStanzaInfo. destruct (_ || _); auto. Qed.

Lemma checkPg_spec r v s : checkStanzaInfoPg r v s = Ok tt <-> valid r v s.
Proof.
  unfold checkStanzaInfoPg, valid, archiveIs, backupIs. split.
  - destruct (loadF (rArchive r) (rArchiveCopy r)) as [[ai ar]|e|] eqn:LA; cbn [bind fst]; try discriminate.
    destruct (curPg ai) as [a|e|] eqn:CA; cbn [bind]; try discriminate.
    destruct (loadF (rBackup r) (rBackupCopy r)) as [[bi br]|e|] eqn:LB; cbn [bind fst]; try discriminate.
    destruct (curPg bi) as [b|e|] eqn:CB; cbn [bind]; try discriminate.
    destruct (checkStanzaInfo a b) as [[]|e|] eqn:K; cbn [bind]; try discriminate.
    destruct (Z.eqb_spec v (pdVersion a)), (Z.eqb_spec s (pdSystemId a)); cbn; try discriminate. intros _.
    apply check_spec in K as (K1 & K2 & K3).
    apply load_spec in LA. apply load_spec in LB. apply cur_spec in CA. apply cur_spec in CB.
    exists ai, ar, bi, br, a, b. repeat split; auto; congruence.
  - intros (ai & ar & bi & br & a & b & LA & LB & CA & CB & I & V1 & V2 & S1 & S2).
    apply load_spec in LA. apply load_spec in LB. apply cur_spec in CA. apply cur_spec in CB.
    rewrite LA. cbn [bind fst]. rewrite CA. cbn [bind]. rewrite LB. cbn [bind fst]. rewrite CB. cbn [bind].
    assert (K : checkStanzaInfo a b = Ok tt) by (apply check_spec; repeat split; congruence). rewrite K. cbn [bind].
    rewrite V1, S1, !Z.eqb_refl. reflexivity.
Qed.

(** * Create *)
Lemma new_spec v s : infoArchiveNew v s = Ok (mkInfoPg [mkPg 1 v s] 0).
Proof. reflexivity. Qed.

Lemma valid_some r v s : valid r v s -> (isSome (rArchive r) || isSome (rArchiveCopy r)) && (isSome (rBackup r) || isSome (rBackupCopy r)) = true.
Proof.
  intros (ai & ar & bi & br & a & b & LA & LB & _). unfold archiveIs, backupIs, holds in *.
  destruct LA as [->|[_ ->]], LB as [->|[_ ->]]; cbn; rewrite ?orb_true_r; reflexivity.
Qed.
Lemma create_valid r v s ka kb : valid r v s ->
  createRepo v s ka kb r = Ok (copyMissing FArchive FArchiveCopy r ++ copyMissing FBackup FBackupCopy r).
Proof.
  intros V. pose proof (valid_some _ _ _ V) as S. apply checkPg_spec in V. unfold createRepo.
  destruct (rArchive r), (rArchiveCopy r), (rBackup r), (rBackupCopy r); cbn in S |- *; try discriminate; rewrite V; reflexivity.
Qed.
Lemma create_blank r v s ka kb : blank r ->
  createRepo v s ka kb r = Ok (saveArchive (mkInfoPg [mkPg 1 v s] 0) ka ++ saveBackup (mkInfoPg [mkPg 1 v s] 0) kb).
Proof. intros ((A & B & C & D) & E & F). unfold createRepo. rewrite A, B, C, D, E, F. reflexivity. Qed.
Lemma create_inv r v s ka kb ws : createRepo v s ka kb r = Ok ws -> blank r \/ valid r v s.
Proof.
  unfold createRepo. destruct (rArchive r) eqn:A, (rArchiveCopy r) eqn:B, (rBackup r) eqn:C, (rBackupCopy r) eqn:D; cbn; intros H; try discriminate;
    try (right; apply checkPg_spec; destruct (checkStanzaInfoPg r v s) as [[]|e|]; cbn in H; [reflexivity|discriminate|discriminate]).
  left. destruct (rArchiveList r) eqn:E, (rBackupList r) eqn:F; cbn in H; try discriminate. repeat split; assumption.
Qed.

(** A file that is copied does not change what is held *)
Lemma holds_copy m c i x : holds m c i x -> holds (match m with None => c | Some f => Some f end) (match c with None => m | Some f => Some f end) i x.
Proof.
  unfold holds. intros [->|[N ->]]; [left; reflexivity|]. destruct m as [[j y|e]|]; [now destruct (N j y)|right; split; [exact N|reflexivity]|left; reflexivity].
Qed.
(** A repository where each missing file is the other one *)
Definition filled (r : repo) : repo :=
  mkRepo (match rArchive r with None => rArchiveCopy r | m => m end) (match rArchiveCopy r with None => rArchive r | m => m end)
         (match rBackup r with None => rBackupCopy r | m => m end) (match rBackupCopy r with None => rBackup r | m => m end) (rArchiveList r) (rBackupList r).
Lemma puts_copy r : (isSome (rArchive r) || isSome (rArchiveCopy r)) && (isSome (rBackup r) || isSome (rBackupCopy r)) = true ->
  puts r (copyMissing FArchive FArchiveCopy r ++ copyMissing FBackup FBackupCopy r) = filled r.
Proof. destruct r as [[] [] [] [] al bl]; cbn; intros H; try discriminate; reflexivity. Qed.
Lemma filled_valid r v s : valid r v s -> valid (filled r) v s.
Proof.
  intros (ai & ar & bi & br & a & b & LA & LB & R). exists ai, ar, bi, br, a, b.
  split; [unfold archiveIs in *; cbn; now apply holds_copy|]. split; [unfold backupIs in *; cbn; now apply holds_copy|]. exact R.
Qed.
Lemma copy_prefix r k v s : valid r v s -> let m := puts r (firstn k (copyMissing FArchive FArchiveCopy r ++ copyMissing FBackup FBackupCopy r)) in
  valid m v s /\ filled m = filled r.
Proof.
  intros V. assert (S := valid_some _ _ _ V). destruct V as (ai & ar & bi & br & a & b & LA & LB & R). unfold archiveIs, backupIs in *.
  pose proof (holds_copy _ _ _ _ LA) as LA'. pose proof (holds_copy _ _ _ _ LB) as LB'.
  destruct r as [[] [] [] [] al bl]; cbn in S; try discriminate; cbn in *; destruct k as [|[|k]]; cbn; rewrite ?firstn_nil; cbn;
    (split; [exists ai, ar, bi, br, a, b; unfold archiveIs, backupIs; cbn; auto|reflexivity]).
Qed.

(** * Upgrade *)
Lemma set_spec i d v s : current i d -> infoPgSet i v s = Ok (mkInfoPg (mkPg ((pdId d + 1) mod 2 ^ 32) v s :: ipHistory i) 0).
Proof.
  unfold current, infoPgSet. intros C. destruct (ipHistory i) as [|h t] eqn:E; [destruct (ipCurrent i); discriminate|]. rewrite C. cbn [bind]. unfold infoPgAdd, u32. now rewrite E.
Qed.
Definition newer (v s : Z) (d : pgData) : bool := negb (v =? pdVersion d) || negb (s =? pdSystemId d).
Definition after (v s : Z) (i : infoPg) (d : pgData) : infoPg :=
  if newer v s d then mkInfoPg (mkPg ((pdId d + 1) mod 2 ^ 32) v s :: ipHistory i) 0 else i.
Definition afterD (v s : Z) (d : pgData) : pgData := if newer v s d then mkPg ((pdId d + 1) mod 2 ^ 32) v s else d.
Lemma newer_false v s d : newer v s d = false <-> pdVersion d = v /\ pdSystemId d = s.
Proof. unfold newer. destruct (Z.eqb_spec v (pdVersion d)), (Z.eqb_spec s (pdSystemId d)); cbn; split; intros H; try discriminate; auto; destruct H; congruence. Qed.
Lemma newer_spec v s d : newer v s d = true <-> pdVersion d <> v \/ pdSystemId d <> s.
Proof.
  unfold newer. destruct (Z.eqb_spec v (pdVersion d)), (Z.eqb_spec s (pdSystemId d)); cbn; split; intros H; try discriminate; try reflexivity; auto.
  destruct H; congruence.
Qed.
Lemma after_cur v s i d : current i d -> current (after v s i d) (afterD v s d).
Proof. unfold after, afterD, current. intros C. destruct (newer v s d); [reflexivity|exact C]. Qed.
Lemma afterD_v v s d : pdVersion (afterD v s d) = v /\ pdSystemId (afterD v s d) = s.
Proof. unfold afterD. destruct (newer v s d) eqn:N; [cbn; auto|]. now apply newer_false. Qed.
Lemma after_upgraded v s i d : current i d -> upgraded v s i (after v s i d).
Proof.
  intros C. exists d. split; [exact C|]. unfold after. destruct (newer v s d) eqn:N.
  - right. split; [now apply newer_spec|reflexivity].
  - left. apply newer_false in N as (? & ?). auto.
Qed.
Lemma upgraded_after v s i j d : current i d -> upgraded v s i j -> j = after v s i d.
Proof.
  intros C (d' & C' & H). unfold current in *. rewrite C in C'. injection C' as <-. unfold after. destruct (newer v s d) eqn:N.
  - apply newer_spec in N. destruct H as [(A & B & _)|(_ & ->)]; [destruct N; congruence|reflexivity].
  - apply newer_false in N as (A & B). destruct H as [(_ & _ & ->)|([?|?] & _)]; [reflexivity|congruence|congruence].
Qed.

Definition upWrites (v s : Z) (ai : infoPg) (ar : str) (a : pgData) (bi : infoPg) (br : str) (b : pgData) : list (fileId * file) :=
  (if newer v s a then saveArchive (after v s ai a) ar else []) ++ (if newer v s b then saveBackup (after v s bi b) br else []).
Lemma upgrade_eq r v s ai ar bi br a b : archiveIs r ai ar -> backupIs r bi br -> current ai a -> current bi b ->
  upgradeRepo v s r = if pdId (afterD v s a) =? pdId (afterD v s b) then Ok (upWrites v s ai ar a bi br b) else Err EOther.
Proof.
  intros LA LB CA CB. unfold archiveIs, backupIs in *. apply load_spec in LA. apply load_spec in LB.
  pose proof (after_cur v s ai a CA) as CA'. pose proof (after_cur v s bi b CB) as CB'.
  unfold upgradeRepo. rewrite LA. cbn [bind fst snd]. rewrite (proj2 (cur_spec _ _) CA). cbn [bind]. rewrite LB. cbn [bind fst snd].
  rewrite (proj2 (cur_spec _ _) CB). cbn [bind]. fold (newer v s a). fold (newer v s b).
  assert (E1 : (if newer v s a then infoPgSet ai v s else Ok ai) = Ok (after v s ai a)) by (unfold after; destruct (newer v s a); [now apply set_spec|reflexivity]).
  assert (E2 : (if newer v s b then infoPgSet bi v s else Ok bi) = Ok (after v s bi b)) by (unfold after; destruct (newer v s b); [now apply set_spec|reflexivity]).
  rewrite E1. cbn [bind]. rewrite E2. cbn [bind]. rewrite (proj2 (cur_spec _ _) CB'). cbn [bind]. rewrite (proj2 (cur_spec _ _) CA'). cbn [bind].
  destruct (afterD_v v s a) as (V1 & S1), (afterD_v v s b) as (V2 & S2). unfold checkStanzaInfo. rewrite V1, S1, V2, S2, !Z.eqb_refl.
  destruct (Z.eqb_spec (pdId (afterD v s a)) (pdId (afterD v s b))); reflexivity.
Qed.
Lemma upgrade_inv r v s ws : upgradeRepo v s r = Ok ws -> exists ai ar bi br a b, archiveIs r ai ar /\ backupIs r bi br /\ current ai a /\ current bi b.
Proof.
  unfold upgradeRepo, archiveIs, backupIs.
  destruct (loadF (rArchive r) (rArchiveCopy r)) as [[ai ar]|e|] eqn:LA; cbn [bind fst]; try discriminate.
  destruct (curPg ai) as [a|e|] eqn:CA; cbn [bind]; try discriminate.
  destruct (loadF (rBackup r) (rBackupCopy r)) as [[bi br]|e|] eqn:LB; cbn [bind fst]; try discriminate.
  destruct (curPg bi) as [b|e|] eqn:CB; cbn [bind]; try discriminate. intros _.
  apply load_spec in LA. apply load_spec in LB. apply cur_spec in CA. apply cur_spec in CB. exists ai, ar, bi, br, a, b. auto.
Qed.
(** After any first part of the writes each info is the old one or the new one *)
Lemma up_prefix r v s ai ar bi br a b k : archiveIs r ai ar -> backupIs r bi br ->
  exists pa pb, archiveIs (puts r (firstn k (upWrites v s ai ar a bi br b))) (if pa : bool then after v s ai a else ai) ar /\
    backupIs (puts r (firstn k (upWrites v s ai ar a bi br b))) (if pb : bool then after v s bi b else bi) br /\
    ((length (upWrites v s ai ar a bi br b) <= k)%nat -> pa = true /\ pb = true).
Proof.
  intros LA LB. unfold upWrites, after, archiveIs, backupIs in *. destruct r as [m c n d al bl]. cbn in *.
  destruct (newer v s a), (newer v s b); destruct k as [|[|[|[|k]]]]; cbn; rewrite ?firstn_nil; cbn.
  all: first
    [ exists true, true; split; [first [exact LA|left; reflexivity]|split; [first [exact LB|left; reflexivity]|auto]]
    | exists true, false; split; [first [exact LA|left; reflexivity]|split; [first [exact LB|left; reflexivity]|intros; exfalso; lia]]
    | exists false, true; split; [first [exact LA|left; reflexivity]|split; [first [exact LB|left; reflexivity]|intros; exfalso; lia]]
    | exists false, false; split; [first [exact LA|left; reflexivity]|split; [first [exact LB|left; reflexivity]|intros; exfalso; lia]] ].
Qed.
Lemma after_after v s i d : current i d -> after v s (after v s i d) (afterD v s d) = after v s i d.
Proof. intros C. unfold after at 1. destruct (afterD_v v s d) as (V & S). assert (N : newer v s (afterD v s d) = false) by now apply newer_false. now rewrite N. Qed.
Lemma afterD_after v s d : afterD v s (afterD v s d) = afterD v s d.
Proof. unfold afterD at 1. assert (N : newer v s (afterD v s d) = false) by (apply newer_false, afterD_v). now rewrite N. Qed.

Lemma each_spec f rs out e : forall idx, eachRepo f idx rs = (out, e) ->
  exists n, length out = length rs /\ (n <= length rs)%nat /\
    (forall k r, nth_error rs k = Some r -> (k < n)%nat -> exists ws, f (idx + k)%nat r = Ok ws /\ nth_error out k = Some (puts r ws)) /\
    (forall k, (n <= k)%nat -> nth_error out k = nth_error rs k) /\
    (e = Ok tt /\ n = length rs \/ exists r, nth_error rs n = Some r /\ match f (idx + n)%nat r with Ok _ => False | Err x => e = Err x | UB => e = UB end).
Proof.
  revert out e. induction rs as [|r rs IH]; intros out e idx H; cbn in H.
  - injection H as <- <-. exists 0%nat. repeat split; auto. intros k r A B. lia.
  - destruct (f idx r) as [ws|x|] eqn:F.
    + destruct (eachRepo f (S idx) rs) as [o e'] eqn:E. injection H as <- <-. destruct (IH _ _ _ E) as (n & L & N & A & B & C). exists (S n). cbn. rewrite L. split; [reflexivity|]. split; [lia|]. split; [|split].
      * intros [|k] r' H1 H2; cbn in H1 |- *.
        { injection H1 as <-. exists ws. rewrite Nat.add_0_r. auto. }
        { destruct (A k r' H1) as (w & W1 & W2); [lia|]. exists w. replace (idx + S k)%nat with (S idx + k)%nat by lia. auto. }
      * intros [|k] H1; [lia|]. cbn. apply B. lia.
      * destruct C as [(-> & ->)|(r' & R1 & R2)]; [left; auto|right]. exists r'. replace (idx + S n)%nat with (S idx + n)%nat by lia. auto.
    + injection H as <- <-. exists 0%nat. split; [reflexivity|]. split; [lia|]. split; [intros; lia|]. split; [auto|]. right. exists r. rewrite Nat.add_0_r, F. auto.
    + injection H as <- <-. exists 0%nat. split; [reflexivity|]. split; [lia|]. split; [intros; lia|]. split; [auto|]. right. exists r. rewrite Nat.add_0_r, F. auto.
Qed.
