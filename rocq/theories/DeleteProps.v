(** C83: deleting a stanza. *)
From Verif Require Import Base Str RegNameModel ControlModel ControlProof DeleteModel DeleteSpec DeleteProof.
From Coq Require Import String List.
Open Scope Z_scope. Open Scope list_scope.

(** If there is content, it is deleted exactly if there is a stop file for the stanza, and the cluster is not running or force is given.  Empty directories are always deleted. *)
Theorem C83_allowed f r d : (exists xs, cmdStanzaDelete f r d = Ok xs) <-> (content d -> dStop d = true /\ (f = true \/ r = false)).
Proof.
  destruct (delete_res f r d) as [(-> & G)|[(_ & C & S & ->)|[(_ & C & S & F & R & ->)|(_ & C & ->)]]]; split; intros H; eauto.
  - intros ([] & n & l & D & _); destruct G as (G1 & G2); cbn in D; congruence.
  - destruct H as (xs & H). discriminate.
  - destruct (H C). congruence.
  - destruct H as (xs & H). discriminate.
  - destruct (H C) as (_ & [K|K]); congruence.
Qed.
Print Assumptions C83_allowed.
Theorem C83_errors f r d e : cmdStanzaDelete f r d = Err e -> content d /\ (e = EFileMissing /\ dStop d = false \/ e = EPgRunning /\ dStop d = true /\ f = false /\ r = true).
Proof. intros H. destruct (delete_res f r d) as [(E & _)|[(_ & C & S & E)|[(_ & C & S & F & R & E)|(_ & _ & E)]]]; rewrite H in E; try discriminate; injection E as ->; auto 6. Qed.
Print Assumptions C83_errors.
(** Afterwards both directories are gone, and so is the stop file if there was a directory. *)
Theorem C83_done f r d xs : cmdStanzaDelete f r d = Ok xs -> gone (doSteps d xs) /\ (~ gone d -> dStop (doSteps d xs) = false).
Proof.
  intros H. destruct (delete_res f r d) as [(E & G)|[(_ & C & S & E)|[(_ & C & S & F & R & E)|(_ & _ & E)]]]; rewrite H in E; try discriminate; injection E as ->.
  - split; [exact G|contradiction].
  - destruct (steps_done d). auto.
Qed.
Print Assumptions C83_done.
(** Killed at any point: if anything but an info file is gone, no info file is left in either directory, so no backup or archive in part is ever found. *)
Theorem C83_info_first f r d xs k s n t m : cmdStanzaDelete f r d = Ok xs -> has d s n -> ~ isInfo s n -> ~ has (doSteps d (firstn k xs)) s n -> isInfo t m -> ~ has (doSteps d (firstn k xs)) t m.
Proof.
  intros H. destruct (delete_res f r d) as [(E & G)|[(_ & C & S & E)|[(_ & C & S & F & R & E)|(_ & _ & E)]]]; rewrite H in E; try discriminate; injection E as ->.
  - rewrite firstn_nil. intros A _ B. contradiction.
  - intros A B C I. now apply (steps_cut d k s n A B C).
Qed.
Print Assumptions C83_info_first.
(** Nothing appears, and the stop file stays until both directories are gone. *)
Theorem C83_cut f r d xs k : cmdStanzaDelete f r d = Ok xs -> (forall s n, has (doSteps d (firstn k xs)) s n -> has d s n) /\
  (dStop (doSteps d (firstn k xs)) = dStop d \/ gone (doSteps d (firstn k xs))).
Proof.
  intros H. split; [intros s n X; apply has_steps in X; tauto|].
  destruct (delete_res f r d) as [(E & G)|[(_ & C & S & E)|[(_ & C & S & F & R & E)|(_ & _ & E)]]]; rewrite H in E; try discriminate; injection E as ->.
  - rewrite firstn_nil. now left.
  - destruct (in_dec step_eq_dec RmStop (firstn k (steps d))) as [I|N]; [right; rewrite (stop_last _ _ I); apply steps_done|left; now apply stop_steps].
Qed.
Print Assumptions C83_cut.
(** The next delete completes it. *)
Theorem C83_again f r d xs k : cmdStanzaDelete f r d = Ok xs -> exists ys, cmdStanzaDelete f r (doSteps d (firstn k xs)) = Ok ys /\ gone (doSteps (doSteps d (firstn k xs)) ys).
Proof.
  intros H. destruct (C83_cut f r d xs k H) as (M & S). assert (A := proj1 (C83_allowed f r d) (ex_intro _ xs H)).
  assert (E : exists ys, cmdStanzaDelete f r (doSteps d (firstn k xs)) = Ok ys).
  { apply C83_allowed. intros C. destruct S as [S|(G1 & G2)].
    - rewrite S. apply A. destruct C as (s & n & C). exists s, n. now apply M.
    - destruct C as ([] & n & l & D & _); cbn in D; congruence. }
  destruct E as (ys & E). exists ys. split; [exact E|]. now apply (C83_done _ _ _ _ E).
Qed.
Print Assumptions C83_again.
(** But the stop file can be left for good: if it is all that is left, the next delete does nothing, and the stanza can not be created again without a start. *)
Theorem C83_stop_refuted : exists d xs k, dStop d = true /\ cmdStanzaDelete false false d = Ok xs /\
  cmdStanzaDelete false false (doSteps d (firstn k xs)) = Ok [] /\ dStop (doSteps d (firstn k xs)) = true.
Proof. exists (mkDstate (Some []) (Some []) true). do 2 eexists. split; [reflexivity|]. split; [reflexivity|]. instantiate (1 := 2%nat). split; reflexivity. Qed.
Print Assumptions C83_stop_refuted.
Definition exState : dstate := mkDstate (Some [txt "16-1/0000000100000000"; txt "16-1"; txt "archive.info"; txt "archive.info.copy"]) (Some [txt "backup.info"; txt "20200101-000000F"]) true.
Example C83_nontrivial :
  (exists xs, cmdStanzaDelete true true exState = Ok xs /\ List.length xs = 13%nat /\
     doSteps exState (firstn 5 xs) = mkDstate (Some [txt "16-1"]) (Some [txt "20200101-000000F"]) true /\ doSteps exState xs = mkDstate None None false) /\
  cmdStanzaDelete false true exState = Err EPgRunning /\ cmdStanzaDelete true true (mkDstate (Some [txt "x"]) None false) = Err EFileMissing /\
  cmdStanzaDelete false true (mkDstate (Some []) None false) = Ok [RmDir SArchive; RmStop] /\ has exState SArchive (txt "16-1") /\ ~ isInfo SArchive (txt "16-1").
Proof.
  split; [eexists; split; [reflexivity|repeat split]|]. repeat (split; [reflexivity|]). split; [eexists; split; [reflexivity|right; now left]|]. intros [H|H]; discriminate.
Qed.
