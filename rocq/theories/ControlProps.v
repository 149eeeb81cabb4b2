(** C82: stop and start, and the names of lock files. *)
From Verif Require Import Base Str NumModel SpoolModel RegNameModel ControlModel ControlSpec ControlProof.
From Coq Require Import String List.
Open Scope Z_scope. Open Scope list_scope.

(** A command may not run exactly if it, or all, are stopped. *)
Theorem C82_test st d : (lockStopTest st d = Err EOther <-> stopped st d) /\ (lockStopTest st d = Ok tt <-> ~ stopped st d).
Proof. destruct (test_spec st d) as [(-> & S)|(-> & S)]; split; split; intros; try discriminate; tauto. Qed.
Print Assumptions C82_test.
(** The names after a stop: the stop file is there, all other files are as before, except lock files of processes that were signalled or are gone. *)
Theorem C82_stop_files st force lock d d' p : cmdStop st force lock d = (d', p) ->
  let name := match st with Some s => s ++ txt ".stop" | None => txt "all.stop" end in
  In name d' /\
  forall x, In x d' <-> x = name \/ In x d /\ ~ (~ In name d /\ force = true /\ ended x (txt ".lock") /\ (forall s, st = Some s -> begun x (s ++ txt "-")) /\ lock x <> LSMissing).
Proof.
  intros H name. assert (NM : lockStopFileName st = name) by (destruct st; reflexivity). assert (NL : selected st name = false) by (unfold name; destruct st; [apply stop_not_lock|exact (stop_not_lock (txt "all") None)]).
  unfold cmdStop in H. rewrite NM in H. cbv zeta in H. clearbody name.
  assert (AL : forall x, In x d' <-> x = name \/ In x d /\ ~ (~ In name d /\ force = true /\ selected st x = true /\ lock x <> LSMissing)).
  { destruct (exists_dec d name) as [(E & I)|(E & I)]; rewrite E in H.
    - injection H as <- <-. intros x. split; [intros K; right; split; [exact K|intros (N & _); contradiction]|]. intros [->|(K & _)]; assumption.
    - destruct force.
      + destruct (loop_spec _ _ _ _ _ _ _ H) as (A & _). intros x. rewrite A. rewrite (strLstSortAsc_in (name :: d)). cbn [In]. split.
        * intros ([<-|K] & N); [now left|right]. split; [exact K|]. intros (_ & _ & S & L). apply N. auto.
        * intros [->|(K & N)]; [split; [now left|intros (_ & S & _); congruence]|]. split; [now right|]. intros (_ & S & L). apply N. auto.
      + injection H as <- <-. intros x. cbn [In]. split; [intros [<-|K]; [now left|right; split; [exact K|intros (_ & F & _); discriminate]]|intros [->|(K & _)]; auto]. }
  split; [apply AL; now left|]. intros x. rewrite AL. rewrite selected_iff. tauto.
Qed.
Print Assumptions C82_stop_files.
(** After a stop the stanza may not run; after a stop of all none may. *)
Theorem C82_stop_self st force lock d : stopped st (fst (cmdStop st force lock d)) /\ (st = None -> forall t, stopped t (fst (cmdStop st force lock d))).
Proof.
  destruct (cmdStop st force lock d) as [d' p] eqn:H. cbn. destruct (C82_stop_files _ _ _ _ _ _ H) as (I & _). split.
  - destruct st as [s|]; [right; eauto|now left].
  - intros -> t. now left.
Qed.
Print Assumptions C82_stop_self.
(** A stop of one stanza, which is not named all, does not stop another one. *)
Theorem C82_stop_other s t force lock d : s <> txt "all" -> t <> Some s -> stopped t (fst (cmdStop (Some s) force lock d)) <-> stopped t d.
Proof.
  intros NA NS. destruct (cmdStop (Some s) force lock d) as [d' p] eqn:H. cbn [fst]. destruct (C82_stop_files _ _ _ _ _ _ H) as (_ & A).
  assert (K : forall u, u <> s -> In (u ++ txt ".stop") d' <-> In (u ++ txt ".stop") d).
  { intros u N. rewrite A. split; [intros [E|(I & _)]; [apply stop_inj in E; contradiction|exact I]|]. intros I. right. split; [exact I|]. intros (_ & _ & E & _).
    assert (S : selected None (u ++ txt ".stop") = true) by (apply selected_iff; split; [exact E|discriminate]). rewrite stop_not_lock in S. discriminate. }
  unfold stopped. change (txt "all.stop") with (txt "all" ++ txt ".stop"). rewrite K by congruence. split; (intros [I|(u & -> & I)]; [now left|right; exists u; split; [reflexivity|]; apply K; [congruence|exact I]]).
Qed.
Print Assumptions C82_stop_other.
(** But a stanza can be named all, and its stop then stops all others. *)
Theorem C82_all_refuted : exists s t d, s <> t /\ ~ stopped (Some t) d /\ stopped (Some t) (fst (cmdStop (Some s) false (fun _ => LSMissing) d)).
Proof. exists (txt "all"), (txt "main"), []. split; [discriminate|]. split; [intros [[]|(? & _ & [])]|]. left. now left. Qed.
Print Assumptions C82_all_refuted.
(** A start removes exactly its stop file. *)
Theorem C82_start st d x : In x (cmdStart st d) <-> In x d /\ x <> match st with Some s => s ++ txt ".stop" | None => txt "all.stop" end.
Proof.
  unfold cmdStart. assert (NM : lockStopFileName st = match st with Some s => s ++ txt ".stop" | None => txt "all.stop" end) by (destruct st; reflexivity). rewrite <- NM.
  destruct (exists_dec d (lockStopFileName st)) as [(-> & I)|(-> & I)]; [apply remove_in|]. split; [intros K; split; [exact K|intros ->; contradiction]|now intros (K & _)].
Qed.
Print Assumptions C82_start.
(** After stop and start each stanza may run exactly if it could before, if there was no such stop file. *)
Theorem C82_stop_start st force lock d t : ~ In (match st with Some s => s ++ txt ".stop" | None => txt "all.stop" end) d ->
  stopped t (cmdStart st (fst (cmdStop st force lock d))) <-> stopped t d.
Proof.
  intros N. destruct (cmdStop st force lock d) as [d' p] eqn:H. cbn [fst]. destruct (C82_stop_files _ _ _ _ _ _ H) as (_ & A).
  assert (K : forall u, In (u ++ txt ".stop") (cmdStart st d') <-> In (u ++ txt ".stop") d).
  { intros u. rewrite C82_start, A. split; [intros ([E|(I & _)] & X); [contradiction|exact I]|]. intros I. split; [right; split; [exact I|]|intros E; rewrite E in I; contradiction]. intros (_ & _ & E & _).
    assert (S : selected None (u ++ txt ".stop") = true) by (apply selected_iff; split; [exact E|discriminate]). rewrite stop_not_lock in S. discriminate. }
  unfold stopped. change (txt "all.stop") with (txt "all" ++ txt ".stop"). rewrite K. split; (intros [I|(u & E & I)]; [now left|right; exists u; split; [exact E|]; apply K; exact I]).
Qed.
Print Assumptions C82_stop_start.

(** ** Signals *)
(** The processes signalled are those that hold a lock file that is selected, each once. *)
Theorem C82_signal st lock d d' p : cmdStop st true lock d = (d', p) -> ~ In (match st with Some s => s ++ txt ".stop" | None => txt "all.stop" end) d ->
  NoDup p /\ forall n, In n p <-> exists f, In f d /\ ended f (txt ".lock") /\ (forall s, st = Some s -> begun f (s ++ txt "-")) /\ lock f = LSValid n.
Proof.
  intros H N. assert (NM : lockStopFileName st = match st with Some s => s ++ txt ".stop" | None => txt "all.stop" end) by (destruct st; reflexivity).
  assert (N' : ~ In (lockStopFileName st) d) by (rewrite NM; exact N). clear N. rename N' into N.
  assert (NL : selected st (lockStopFileName st) = false) by (destruct st; [apply stop_not_lock|exact (stop_not_lock (txt "all") None)]).
  unfold cmdStop in H. cbv zeta in H. destruct (exists_dec d (lockStopFileName st)) as [(E & I)|(E & I)]; [contradiction|rewrite E in H].
  destruct (loop_spec _ _ _ _ _ _ _ H) as (_ & B & C). split; [apply C; constructor|]. intros n. rewrite B. split.
  - intros [[]|(f & F & S & L)]. rewrite (strLstSortAsc_in) in F. destruct F as [<-|F]; [congruence|]. exists f. apply selected_iff in S as (S1 & S2). auto.
  - intros (f & F & S1 & S2 & L). right. exists f. split; [rewrite strLstSortAsc_in; now right|]. split; [now apply selected_iff|exact L].
Qed.
Print Assumptions C82_signal.
(** So every process that holds a lock of the stanza is signalled, and with no stanza every process that holds a lock of any. *)
Theorem C82_signal_all st lock d s f n : ~ In (match st with Some s => s ++ txt ".stop" | None => txt "all.stop" end) d -> In f d -> lockOf s f -> lock f = LSValid n ->
  st = Some s \/ st = None -> In n (snd (cmdStop st true lock d)).
Proof.
  intros N F O L S. destruct (cmdStop st true lock d) as [d' p] eqn:H. cbn. apply (C82_signal _ _ _ _ _ H N). exists f. pose proof (lock_selected _ _ _ O S) as X. apply selected_iff in X as (X1 & X2). auto.
Qed.
Print Assumptions C82_signal_all.
(** And no other, if the name of no other stanza with a lock is that of this one followed by a dash and more, or the other way round. *)
Theorem C82_signal_only s lock d n : ~ In (s ++ txt ".stop") d ->
  (forall f, In f d -> ended f (txt ".lock") -> exists t, lockOf t f /\ (t = s \/ apart s t)) ->
  In n (snd (cmdStop (Some s) true lock d)) -> exists f, In f d /\ lockOf s f /\ lock f = LSValid n.
Proof.
  intros N A I. destruct (cmdStop (Some s) true lock d) as [d' p] eqn:H. cbn in I. apply (C82_signal _ _ _ _ _ H N) in I as (f & F & E & B & L). exists f. split; [exact F|]. split; [|exact L].
  destruct (A f F E) as (t & O & T). assert (S : selected (Some s) f = true) by (apply selected_iff; split; assumption).
  destruct (lock_apart _ _ _ O S) as [->|NA]; [exact O|]. destruct T as [->|T]; [exact O|contradiction].
Qed.
Print Assumptions C82_signal_only.
(** Without that it is false in both ways: a stop of stanza a signals a process of stanza a-b, and a stop of stanza a-backup one of stanza a.  The lock file is removed as well. *)
Theorem C82_signal_refuted : forall s t, s = txt "a" /\ t = txt "a-b" \/ s = txt "a-backup" /\ t = txt "a" ->
  exists f lock, lockOf t f /\ ~ lockOf s f /\ cmdStop (Some s) true lock [f] = ([s ++ txt ".stop"], [42]) /\ lock f = LSValid 42.
Proof.
  intros s t H. exists (cmdLockFileName t LBackup 1), (fun f => if strEqb f (cmdLockFileName t LBackup 1) then LSValid 42 else LSMissing).
  split; [exists LBackup, 1; split; [lia|reflexivity]|]. split.
  - intros (ty & k & K & E). apply name_inj in E as (E & _); [|lia|exact K]. destruct H as [(-> & ->)|(-> & ->)]; discriminate.
  - destruct H as [(-> & ->)|(-> & ->)]; split; reflexivity.
Qed.
Print Assumptions C82_signal_refuted.
(** If the stop file exists nothing is done: force does not signal any process then. *)
Theorem C82_again st force lock d : In (match st with Some s => s ++ txt ".stop" | None => txt "all.stop" end) d -> cmdStop st force lock d = (d, []).
Proof.
  intros I. assert (NM : lockStopFileName st = match st with Some s => s ++ txt ".stop" | None => txt "all.stop" end) by (destruct st; reflexivity).
  assert (I' : In (lockStopFileName st) d) by (rewrite NM; exact I). clear I. rename I' into I.
  unfold cmdStop. cbv zeta. apply exists_in in I. now rewrite I.
Qed.
Print Assumptions C82_again.
Theorem C82_no_force st lock d : snd (cmdStop st false lock d) = [].
Proof. unfold cmdStop. cbv zeta. destruct (strLstExists _ _); reflexivity. Qed.
Print Assumptions C82_no_force.

(** ** Names of lock files *)
(** Two commands want a lock file in common exactly if they are of the same stanza and have a type and a repository in common. *)
Theorem C82_lock_names s s' ty ty' repo repo' keys keys' :
  (forall k, In k keys \/ In k keys' \/ repo = Some k \/ repo' = Some k -> 0 <= k < 2 ^ 32) ->
  (exists f, In f (cmdLockList s ty repo keys) /\ In f (cmdLockList s' ty' repo' keys')) <->
  s = s' /\ (exists t, (ty = None \/ ty = Some t) /\ (ty' = None \/ ty' = Some t)) /\
  exists k, (repo = Some k \/ repo = None /\ In k keys) /\ (repo' = Some k \/ repo' = None /\ In k keys').
Proof.
  intros R.
  assert (L : forall s ty repo keys f, In f (cmdLockList s ty repo keys) <-> exists t k, (ty = None \/ ty = Some t) /\ (repo = Some k \/ repo = None /\ In k keys) /\ f = cmdLockFileName s t k).
  { clear. intros s ty repo keys f. unfold cmdLockList. rewrite in_flat_map. split.
    - intros (t & T & K). apply in_map_iff in K as (k & <- & K). exists t, k. split; [destruct ty; cbn in T; [right; destruct T as [->|[]]; reflexivity|now left]|].
      split; [destruct repo; [left; destruct K as [->|[]]; reflexivity|right; auto]|reflexivity].
    - intros (t & k & T & K & ->). exists t. split; [destruct T as [->| ->]; [destruct t; cbn; auto|now left]|]. apply in_map. destruct K as [->|(-> & K)]; [now left|exact K]. }
  split.
  - intros (f & A & B). apply L in A as (t & k & T & K & ->). apply L in B as (t' & k' & T' & K' & E). apply name_inj in E as (-> & -> & ->).
    + split; [reflexivity|]. split; [exists t'; auto|exists k'; auto].
    + apply R. destruct K as [K|(_ & K)]; auto.
    + apply R. destruct K' as [K0|(_ & K0)]; auto.
  - intros (-> & (t & T & T') & (k & K & K')). exists (cmdLockFileName s' t k). split; apply L; exists t, k; auto.
Qed.
Print Assumptions C82_lock_names.

Definition exDir : list str := [txt "a-archive-1.lock"; txt "a-backup-1.lock"; txt "b-backup-2.lock"; txt "b.stop"; txt "x"].
Definition exLock (f : str) : lockState :=
  if strEqb f (txt "a-archive-1.lock") then LSValid 7 else if strEqb f (txt "a-backup-1.lock") then LSValid 7 else if strEqb f (txt "b-backup-2.lock") then LSValid 8 else LSMissing.
Example C82_nontrivial :
  cmdStop (Some (txt "a")) true exLock exDir = ([txt "a.stop"; txt "b-backup-2.lock"; txt "b.stop"; txt "x"], [7]) /\
  cmdStop None true exLock exDir = ([txt "all.stop"; txt "b.stop"; txt "x"], [7; 8]) /\
  lockStopTest (Some (txt "b")) exDir = Err EOther /\ lockStopTest (Some (txt "a")) exDir = Ok tt /\
  cmdStart (Some (txt "b")) exDir = [txt "a-archive-1.lock"; txt "a-backup-1.lock"; txt "b-backup-2.lock"; txt "x"] /\
  lockOf (txt "a") (txt "a-backup-1.lock") /\ apart (txt "a") (txt "b") /\ txt "a" <> txt "all" /\
  cmdLockList (txt "a") None (Some 2) [1; 2] = [txt "a-archive-2.lock"; txt "a-backup-2.lock"; txt "a-restore-2.lock"].
Proof.
  repeat (split; [reflexivity|]). split; [exists LBackup, 1; split; [lia|reflexivity]|]. split; [split; intros (e & E); discriminate|]. split; [discriminate|reflexivity].
Qed.
