(** Property C35: the parallel executor. *)
From Verif Require Import Base ParallelModel ParallelSpec ParallelProof.
Open Scope nat_scope.

(** C35.  Every use of the executor (any number of clients, any callback, any order of answers, any sequence of process, result and done
    calls) follows the rules of [good]: each job of the callback is sent once, to the idle client it was asked for; the answer taken from a
    client belongs to the job it works on; every job is returned at most once, with its own data and answer. *)
Theorem C35_trace_good : forall J R S (callback : S -> nat -> option J * S) n s p, reachable J R S callback n s p ->
  good J R S callback n s (pTrace J R S p) (pCb J R S p).
Proof. intros J R S callback n s p H. apply reachable_inv in H. destruct H as (I & _). apply I. Qed.
Print Assumptions C35_trace_good.

(** C35.  Exactly once: sent, answered and returned jobs are without repetition, answered jobs were sent and returned jobs answered. *)
Theorem C35_exactly_once : forall J R S (callback : S -> nat -> option J * S) n s p, reachable J R S callback n s p ->
  let t := pTrace J R S p in
  NoDup (sentIds J R t) /\ NoDup (receivedIds J R t) /\ NoDup (returnedIds J R t) /\
  incl (receivedIds J R t) (sentIds J R t) /\ incl (returnedIds J R t) (receivedIds J R t).
Proof.
  intros J R S callback n s p H. apply C35_trace_good in H. destruct (good_nodup _ _ _ _ _ _ _ _ H) as (A & B & C). destruct (good_chain _ _ _ _ _ _ _ _ H) as (D & E).
  repeat (split; [assumption|]). assumption.
Qed.
Print Assumptions C35_exactly_once.

(** C35.  Done is reported only when no client works on a job, every client was freed (the callback had no more jobs for it) and every job
    sent was returned. *)
Theorem C35_done : forall J R S (callback : S -> nat -> option J * S) n s p p', reachable J R S callback n s p ->
  done J R S p = Ok (p', true) ->
  (forall c, c < n -> working J R (pTrace J R S p) c = None /\ In (Freed J R c) (pTrace J R S p)) /\
  (forall i, In i (sentIds J R (pTrace J R S p)) -> In i (returnedIds J R (pTrace J R S p))).
Proof. intros J R S callback n s p p' H Hd. apply reachable_inv in H. destruct (done_all _ _ _ _ _ _ _ _ H Hd) as (_ & A & B). auto. Qed.
Print Assumptions C35_done.

(** C35.  The number returned by process is the number of answers taken, and that many jobs can be fetched: a fetch gives a job exactly
    when fewer jobs were returned than answered. *)
Theorem C35_process_total : forall J R S (callback : S -> nat -> option J * S) n s p ready resp p' k, reachable J R S callback n s p ->
  process J R S callback ready resp p = Ok (p', k) ->
  length (receivedIds J R (pTrace J R S p')) = length (receivedIds J R (pTrace J R S p)) + k.
Proof.
  intros J R S callback n s p ready resp p' k H E. apply reachable_inv in H. assert (Hst : pState J R S p <> JDone) by (intros Hs; unfold process in E; rewrite Hs in E; discriminate).
  destruct (process_inv _ _ _ _ _ _ _ ready resp H Hst) as (p2 & k2 & E2 & _ & L). rewrite E2 in E. now injection E as -> ->.
Qed.
Print Assumptions C35_process_total.
Theorem C35_result_available : forall J R S (callback : S -> nat -> option J * S) n s p, reachable J R S callback n s p -> pState J R S p = JRunning ->
  (exists p' j, result J R S p = Ok (p', Some j)) <-> length (returnedIds J R (pTrace J R S p)) < length (receivedIds J R (pTrace J R S p)).
Proof. intros J R S callback n s p H. apply reachable_inv in H. now apply result_available with (n := n) (s := s) (callback := callback). Qed.
Print Assumptions C35_result_available.

(** C35.  No assertion fails and no freed or foreign job is written, as long as the executor is not used after it reported done and not
    asked for results before the first process call. *)
Theorem C35_no_assert : forall J R S (callback : S -> nat -> option J * S) n s p, reachable J R S callback n s p ->
  (pState J R S p <> JDone -> forall ready resp, exists r, process J R S callback ready resp p = Ok r) /\
  (pState J R S p = JRunning -> exists r, result J R S p = Ok r) /\
  (pState J R S p <> JPending -> exists r, done J R S p = Ok r).
Proof.
  intros J R S callback n s p H. apply reachable_inv in H. split; [|split]; intros Hs; [intros ready resp|..].
  - destruct (process_inv _ _ _ _ _ _ _ ready resp H Hs) as (a & b & E & _). eauto.
  - destruct (result_inv _ _ _ _ _ _ _ H Hs) as (a & b & E & _). eauto.
  - destruct (done_inv _ _ _ _ _ _ _ H Hs) as (a & b & E & _). eauto.
Qed.
Print Assumptions C35_no_assert.

(** Two clients, a callback with three jobs, answers in reverse order. *)
Definition cb3 (s : nat) (c : nat) : option nat * nat := if s <? 3 then (Some (10 + s), s + 1) else (None, s).
Example C35_nontrivial : exists p p',
  runOps nat nat nat cb3
    [OProcess nat (fun _ => false) (fun _ => 0); OProcess nat (fun c => Nat.eqb c 1) (fun c => 100 + c); OResult nat; OProcess nat (fun _ => true) (fun c => 200 + c);
     OResult nat; OResult nat] (parNew nat nat nat 2 0) = Ok p /\
  done nat nat nat p = Ok (p', true) /\ sentIds nat nat (pTrace nat nat nat p) = [0;1;2] /\ returnedIds nat nat (pTrace nat nat nat p) = [1;0;2].
Proof. eexists _, _. split; [vm_compute; reflexivity|]. repeat split; vm_compute; reflexivity. Qed.
