(** What the jobs of a backup and a restore have to satisfy, stated without the generators' own queues. *)
From Verif Require Import Base Str JobModel.
From Coq Require Import Sorting.Sorted Sorting.Permutation.
Open Scope Z_scope.

(** Requests of clients in any order and their answers. *)
Inductive backupRun (c : jobConf) : backupJobs -> list (Z * option (Z * list mfile)) -> backupJobs -> Prop :=
| br_nil st : backupRun c st [] st
| br_cons st k a st1 l st2 : 0 <= k -> backupJobCallback c st k = Ok (a, st1) -> backupRun c st1 l st2 -> backupRun c st ((k, a) :: l) st2.
Inductive restoreRun : list (list mfile) -> list (Z * option (Z * list mfile)) -> list (list mfile) -> Prop :=
| rr_nil st : restoreRun st [] st
| rr_cons st k a st1 l st2 : 0 <= k -> restoreJobCallback st k = Ok (a, st1) -> restoreRun st1 l st2 -> restoreRun st ((k, a) :: l) st2.
(** The files of an answer and of all answers. *)
Definition answerFiles (a : option (Z * list mfile)) : list mfile := match a with Some (_, l) => l | None => [] end.
Definition runFiles (l : list (Z * option (Z * list mfile))) : list mfile := flat_map (fun p => answerFiles (snd p)) l.
Definition sizes (l : list mfile) : Z := fold_right (fun f z => mfSizeOriginal f + z) 0 l.

(** A total order given by a comparison. *)
Definition totalOrder {A} (P : A -> Prop) (cmp : A -> A -> comparison) : Prop :=
  (forall a b, P a -> P b -> cmp a b = Eq -> a = b) /\
  (forall a b, P a -> P b -> a <> b -> cmp b a = CompOpp (cmp a b)) /\
  (forall a b c, P a -> P b -> P c -> cmp a b = Lt -> cmp b c = Lt -> cmp a c = Lt).

(** The data directory and tablespace that a name is in, as seen by the prefix of the name. *)
Definition targetPrefixes (targets : list (Z * str)) (t : str) : Prop :=
  t = pgDataPrefix \/ exists id name, In (id, name) targets /\ id <> 0 /\ t = name ++ [47].
Definition inTarget (f : mfile) (t : str) : Prop := exists rest, mfName f = t ++ rest.
Definition sameTarget (targets : list (Z * str)) (f g : mfile) : Prop := forall t, targetPrefixes targets t -> (inTarget f t <-> inTarget g t).
(** A file that only the primary may be asked for in a backup from standby. *)
Definition primaryOnly (standbyMatch : str -> bool) (f : mfile) : Prop := mfName f = pgControl \/ standbyMatch (mfName f) = false.
(** Two files that wait in the same line. *)
Definition sameLine (c : jobConf) (standbyMatch : str -> bool) (targets : list (Z * str)) (f g : mfile) : Prop :=
  if jcStandby c then (primaryOnly standbyMatch f /\ primaryOnly standbyMatch g) \/
                      (~ primaryOnly standbyMatch f /\ ~ primaryOnly standbyMatch g /\ sameTarget targets f g)
  else sameTarget targets f g.
(** The bundle ids handed out, in order. *)
Definition bundleIds (l : list (Z * option (Z * list mfile))) : list Z :=
  flat_map (fun p => match snd p with Some (id, _) => if id =? 0 then [] else [id] | None => [] end) l.
