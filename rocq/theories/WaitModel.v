(** Waiting.  Models src/common/wait.c.

    The time is what the clock says at each call; it may go back.  The sizes are of 64 bits.  Sleeping is the time slept in the result. *)
From Verif Require Import Base ConvertModel.
Open Scope Z_scope.

(** wait.c:13-20 *)
Record wait := mkWait { wTime : Z; wSleep : Z; wPrev : Z; wBegin : Z; wRetry : Z }.
(** wait.c:23-54 *)
Definition waitNew (time now : Z) : wait := mkWait time (if 1000 <=? time then 1000 / 10 else time / 10) 0 now 2.
(** wait.c:57-109 *)
Definition waitRemains (w : wait) (now : Z) : Z * wait :=
  if 0 <? wSleep w then
    let elapsed := (now - wBegin w) mod two64 in
    let retry := if 0 <? wRetry w then wRetry w - 1 else wRetry w in
    if elapsed <? wTime w then
      let remains := wTime w - elapsed in
      let sleep := (wSleep w + wPrev w) mod two64 in
      (remains, mkWait (wTime w) (if remains <? sleep then remains else sleep) (wSleep w) (wBegin w) retry)
    else if negb (wRetry w =? 0) then (wSleep w, mkWait (wTime w) (wSleep w) (wPrev w) (wBegin w) retry)
    else (0, mkWait (wTime w) 0 (wPrev w) (wBegin w) retry)
  else (0, w).
(** wait.c:112-133: if there is more, and how long it slept *)
Definition waitMore (w : wait) (now : Z) : bool * Z * wait :=
  let '(remains, w) := waitRemains w now in if 0 <? remains then (true, wSleep w, w) else (false, 0, w).
(** Calls of waitMore() one after the other with these readings of the clock *)
Fixpoint waitCalls (w : wait) (nows : list Z) : list (bool * Z) :=
  match nows with [] => [] | now :: r => let '(more, slept, w) := waitMore w now in (more, slept) :: waitCalls w r end.
