(** What a run of the parallel executor may look like. *)
From Verif Require Import Base ParallelModel.
Open Scope nat_scope.

Section Spec.
  Variables (J R S : Type) (callback : S -> nat -> option J * S).
  Notation event := (event J R).
  Definition sentIds (t : list event) : list nat := flat_map (fun e => match e with Sent _ _ _ i _ => [i] | _ => [] end) t.
  Definition receivedIds (t : list event) : list nat := flat_map (fun e => match e with Received _ _ _ i _ => [i] | _ => [] end) t.
  Definition returnedIds (t : list event) : list nat := flat_map (fun e => match e with Returned _ _ i _ _ => [i] | _ => [] end) t.
  (** Job a client works on after the events. *)
  Definition working (t : list event) (c : nat) : option nat :=
    fold_left (fun w e => match e with
      | Sent _ _ c' i _ => if Nat.eqb c c' then Some i else w
      | Received _ _ c' _ _ => if Nat.eqb c c' then None else w
      | _ => w end) t None.

  (** [good n s t s']: a run of [n] clients from callback state [s] with events [t] that leaves callback state [s']:
      - a new job of the callback goes to the client it was asked for, which is idle and not freed, and never twice;
      - a client for which the callback has no job is freed, and not asked again;
      - an answer is taken from a client that works on a job, and belongs to that job;
      - a job is returned once, after its answer was taken, with its own data and answer. *)
  Inductive good (n : nat) (s : S) : list event -> S -> Prop :=
  | good_nil : good n s [] s
  | good_sent t s1 s2 c i d : good n s t s1 -> c < n -> working t c = None -> ~ In (Freed J R c) t -> callback s1 c = (Some d, s2) ->
      ~ In i (sentIds t) -> good n s (t ++ [Sent J R c i d]) s2
  | good_freed t s1 s2 c : good n s t s1 -> c < n -> working t c = None -> ~ In (Freed J R c) t -> callback s1 c = (None, s2) ->
      good n s (t ++ [Freed J R c]) s2
  | good_received t s1 c i r : good n s t s1 -> working t c = Some i -> ~ In i (receivedIds t) -> good n s (t ++ [Received J R c i r]) s1
  | good_returned t s1 c i d r : good n s t s1 -> In (Sent J R c i d) t -> In (Received J R c i r) t -> ~ In i (returnedIds t) ->
      good n s (t ++ [Returned J R i d (Some r)]) s1.
End Spec.
