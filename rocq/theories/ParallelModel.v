(** Parallel executor.  Models src/protocol/parallel.c:80-286 and src/protocol/parallelJob.c:106-126.

    A job pointer is a number: [pNext] counts the jobs created by the callback (pointer identity).  The job callback is any function with
    a state of its own.  select() is the argument [ready]: which of the clients running a job have an answer; protocolClientSessionResponse
    is [resp]: the answer or error read from a client.  [pTrace] records what happens, it is not read by the code. *)
From Verif Require Import Base.

Inductive jobState := JPending | JRunning | JDone.
Section Parallel.
  Variables (J R S : Type).
  (** ParallelJobCallback: state, client index -> new job or NULL, new state. *)
  Variable callback : S -> nat -> option J * S.

  Record job := mkJob { jId : nat; jData : J; jProc : nat; jState : jobState; jResult : option R }.
  Inductive event :=
  | Sent (client id : nat) (data : J)           (* command put to the client *)
  | Freed (client : nat)                        (* callback had no more jobs, client freed *)
  | Received (client id : nat) (result : R)     (* answer read from the client *)
  | Returned (id : nat) (data : J) (result : option R).     (* protocolParallelResult() *)
  (** Client: job it runs (clientJobList), not yet freed (clientList entry not NULL). *)
  Record client := mkClient { cJob : option nat; cOpen : bool }.
  Record par := mkPar { pState : jobState; pClients : list client; pJobs : list job; pCb : S; pNext : nat; pTrace : list event }.

  (** parallel.c:43-90: new executor with clients added. *)
  Definition parNew (n : nat) (s : S) : par := mkPar JPending (repeat (mkClient None true) n) [] s 0 [].

  (** parallelJob.c:106-126 protocolParallelJobStateSet *)
  Definition jobStateSet (j : job) (s : jobState) : res job :=
    match jState j, s with
    | JPending, JRunning => Ok (mkJob (jId j) (jData j) (jProc j) JRunning (jResult j))
    | JRunning, JDone => Ok (mkJob (jId j) (jData j) (jProc j) JDone (jResult j))
    | _, _ => Err EAssert
    end.
  (** Writing through the job pointer. *)
  Fixpoint jobUpdate (id : nat) (f : job -> res job) (l : list job) : res (list job) :=
    match l with
    | [] => UB
    | j :: r => if Nat.eqb (jId j) id then let* j' := f j in Ok (j' :: r) else let* r' := jobUpdate id f r in Ok (j :: r')
    end.
  (** parallelJob.c: protocolParallelJobResultSet / ErrorSet followed by the state change, parallel.c:158-176 *)
  Definition jobFinish (r : R) (j : job) : res job := jobStateSet (mkJob (jId j) (jData j) (jProc j) (jState j) (Some r)) JDone.

  Section Process.
    Variables (ready : nat -> bool) (resp : nat -> R).
    (** parallel.c:126-141, 152: clients running a job that select() reports *)
    Fixpoint completedTotal (idx : nat) (cl : list client) : nat :=
      match cl with
      | [] => 0
      | c :: r => (match cJob c with Some _ => if ready idx then 1 else 0 | None => 0 end) + completedTotal (idx + 1) r
      end.
    (** parallel.c:158-184 *)
    Fixpoint collect (idx : nat) (cl : list client) (jobs : list job) (t : list event) : res (list client * list job * list event) :=
      match cl with
      | [] => Ok ([], jobs, t)
      | c :: r =>
          match cJob c with
          | Some id =>
              if ready idx then
                let* jobs' := jobUpdate id (jobFinish (resp idx)) jobs in
                let* (r', jobs2, t2) := collect (idx + 1) r jobs' (t ++ [Received idx id (resp idx)]) in
                Ok (mkClient None (cOpen c) :: r', jobs2, t2)
              else
                let* (r', jobs2, t2) := collect (idx + 1) r jobs t in Ok (c :: r', jobs2, t2)
          | None => let* (r', jobs2, t2) := collect (idx + 1) r jobs t in Ok (c :: r', jobs2, t2)
          end
      end.
  End Process.

  (** parallel.c:192-233 *)
  Fixpoint start (idx : nat) (cl : list client) (jobs : list job) (cb : S) (next : nat) (t : list event)
    : res (list client * list job * S * nat * list event) :=
    match cl with
    | [] => Ok ([], jobs, cb, next, t)
    | c :: r =>
        if match cJob c with None => cOpen c | Some _ => false end then
          let '(o, cb') := callback cb idx in
          match o with
          | Some d =>
              let* j := jobStateSet (mkJob next d (idx + 1) JPending None) JRunning in
              let* (r', jobs2, cb2, next2, t2) := start (idx + 1) r (jobs ++ [j]) cb' (next + 1) (t ++ [Sent idx next d]) in
              Ok (mkClient (Some next) (cOpen c) :: r', jobs2, cb2, next2, t2)
          | None =>
              let* (r', jobs2, cb2, next2, t2) := start (idx + 1) r jobs cb' next (t ++ [Freed idx]) in
              Ok (mkClient None false :: r', jobs2, cb2, next2, t2)
          end
        else
          let* (r', jobs2, cb2, next2, t2) := start (idx + 1) r jobs cb next t in Ok (c :: r', jobs2, cb2, next2, t2)
    end.

  (** parallel.c:93-239 protocolParallelProcess *)
  Definition process (ready : nat -> bool) (resp : nat -> R) (p : par) : res (par * nat) :=
    match pState p with
    | JDone => Err EAssert
    | _ =>
        let completed := completedTotal ready 0 (pClients p) in
        let* (cl, jobs, t) := (if (0 <? completed)%nat then collect ready resp 0 (pClients p) (pJobs p) (pTrace p)
                               else Ok (pClients p, pJobs p, pTrace p)) in
        let* (cl2, jobs2, cb2, next2, t2) := start 0 cl jobs (pCb p) (pNext p) t in
        Ok (mkPar JRunning cl2 jobs2 cb2 next2 t2, completed)
    end.

  (** parallel.c:243-268 protocolParallelResult *)
  Fixpoint takeDone (l : list job) : option (job * list job) :=
    match l with
    | [] => None
    | j :: r => match jState j with
                | JDone => Some (j, r)
                | _ => match takeDone r with Some (x, r') => Some (x, j :: r') | None => None end
                end
    end.
  Definition result (p : par) : res (par * option job) :=
    match pState p with
    | JRunning =>
        match takeDone (pJobs p) with
        | Some (j, l) => Ok (mkPar (pState p) (pClients p) l (pCb p) (pNext p) (pTrace p ++ [Returned (jId j) (jData j) (jResult j)]), Some j)
        | None => Ok (p, None)
        end
    | _ => Err EAssert
    end.

  (** parallel.c:272-286 protocolParallelDone *)
  Definition done (p : par) : res (par * bool) :=
    match pState p with
    | JPending => Err EAssert
    | JDone => Ok (p, true)
    | JRunning => match pJobs p with
                  | [] => Ok (mkPar JDone (pClients p) (pJobs p) (pCb p) (pNext p) (pTrace p), true)
                  | _ => Ok (p, false)
                  end
    end.

  (** Any use of the executor. *)
  Inductive op := OProcess (ready : nat -> bool) (resp : nat -> R) | OResult | ODone.
  Definition runOp (o : op) (p : par) : res par :=
    match o with
    | OProcess ready resp => let* (p', _) := process ready resp p in Ok p'
    | OResult => let* (p', _) := result p in Ok p'
    | ODone => let* (p', _) := done p in Ok p'
    end.
  Fixpoint runOps (l : list op) (p : par) : res par :=
    match l with [] => Ok p | o :: r => let* p' := runOp o p in runOps r p' end.
End Parallel.
