(** Job generators of backup and restore.  Models src/command/backup/process.c.inc (queues, comparator, backupJobCallback) and
    src/command/restore/process.c.inc (queues, comparator, restoreJobCallback).

    Simplifications: of a file only what the generators look at is modelled (the other parameters are copied from the manifest as they are); a
    job is its key and its files in order; qsort() is a sort with the same comparator (the comparators are total orders, JobProps.v, so the
    order does not depend on the algorithm); sizes are file sizes, so that their sum over one job does not wrap around. *)
From Verif Require Import Base Str.
Open Scope Z_scope.

(** manifest.h ManifestFile *)
Record mfile := mkMfile {
  mfName : str; mfCopy : bool; mfSize : Z; mfSizeOriginal : Z; mfTimestamp : Z; mfReference : option str; mfBundleId : Z; mfBundleOffset : Z }.

(** * Queues *)
(** MANIFEST_TARGET_PGDATA "/" *)
Definition pgDataPrefix : str := [112;103;95;100;97;116;97;47].
(** MANIFEST_TARGET_PGDATA "/" PG_PATH_GLOBAL "/" PG_FILE_PGCONTROL *)
Definition pgControl : str := pgDataPrefix ++ [103;108;111;98;97;108;47;112;103;95;99;111;110;116;114;111;108].
(** backup 474-484, restore 97-107: the targets are (tablespace id, name) *)
Definition targetList (targets : list (Z * str)) : list str :=
  pgDataPrefix :: map (fun t => snd t ++ [47]) (filter (fun t => negb (fst t =? 0)) targets).
(** backup 534-546, restore 124-137: the index of the first target that the name begins with *)
Fixpoint targetFind (name : str) (targets : list str) : option nat :=
  match targets with
  | [] => None
  | t :: r => if strBeginsWith name t then Some O else option_map S (targetFind name r)
  end.
(** lstAdd(*(List **)lstGet(queueList, idx), &filePack) *)
Fixpoint queueAdd (queues : list (list mfile)) (idx : nat) (f : mfile) : res (list (list mfile)) :=
  match queues, idx with
  | [], _ => UB
  | q :: r, O => Ok ((q ++ [f]) :: r)
  | q :: r, S i => let* r := queueAdd r i f in Ok (q :: r)
  end.
(** lstSort(..., sortOrderAsc) *)
Fixpoint insertCmp {A} (cmp : A -> A -> comparison) (x : A) (l : list A) : list A :=
  match l with
  | [] => [x]
  | y :: r => match cmp x y with Gt => y :: insertCmp cmp x r | _ => x :: l end
  end.
Fixpoint sortCmp {A} (cmp : A -> A -> comparison) (l : list A) : list A :=
  match l with [] => [] | x :: r => insertCmp cmp x (sortCmp cmp r) end.

(** * Backup *)
Record jobConf := mkJobConf { jcStandby : bool; jcBundle : bool; jcBundleSize : Z; jcBundleLimit : Z }.
(** backup 351-363; [standbyMatch] is regExpMatch(standbyExp, name) *)
Definition filePrimary (standbyMatch : str -> bool) (name : str) : bool := strEqb name pgControl || negb (standbyMatch name).

(** restore 47-63 and backup 417-428: a file without reference is last *)
Definition referenceCmp (a b : option str) : comparison :=
  match a, b with None, None => Eq | None, Some _ => Gt | Some _, None => Lt | Some x, Some y => strCmp x y end.
(** backup 377-451 *)
Definition backupCmp (c : jobConf) (f1 f2 : mfile) : comparison :=
  let b1 := jcBundle c && (mfSize f1 <=? jcBundleLimit c) in
  let b2 := jcBundle c && (mfSize f2 <=? jcBundleLimit c) in
  if negb (Bool.eqb b1 b2) then (if b1 then Gt else Lt)
  else if negb b1 then
    if mfSize f1 <? mfSize f2 then Gt else if mfSize f2 <? mfSize f1 then Lt else strCmp (mfName f1) (mfName f2)
  else
    let byTime := if mfTimestamp f1 <? mfTimestamp f2 then Lt else if mfTimestamp f2 <? mfTimestamp f1 then Gt
                  else strCmp (mfName f1) (mfName f2) in
    match mfReference f1, mfReference f2 with
    | None, Some _ => Gt
    | Some _, None => Lt
    | Some r1, Some r2 =>
        match strCmp r1 r2 with
        | Eq => if mfBundleId f1 <? mfBundleId f2 then Lt else if mfBundleId f2 <? mfBundleId f1 then Gt
                else if mfBundleOffset f1 <? mfBundleOffset f2 then Lt else if mfBundleOffset f2 <? mfBundleOffset f1 then Gt
                else byTime
        | x => x
        end
    | None, None => byTime
    end.

(** backup 503-555: one file; the state is the queues, the total size and number, and whether pg_control has been seen *)
Definition backupQueueFile (c : jobConf) (standbyMatch : str -> bool) (targets : list str) (st : list (list mfile) * Z * Z * bool) (f : mfile) :
    res (list (list mfile) * Z * Z * bool) :=
  let '(queues, size, total, control) := st in
  if negb (mfCopy f) then Ok st
  else
    let control := control || strEqb (mfName f) pgControl in
    let* queues :=
      if jcStandby c && filePrimary standbyMatch (mfName f) then queueAdd queues 0 f
      else match targetFind (mfName f) targets with
           | None => Err EAssert
           | Some i => queueAdd queues (i + if jcStandby c then 1 else 0)%nat f
           end in
    Ok (queues, size + mfSizeOriginal f, total + 1, control).
Fixpoint foldRes {A B} (f : A -> B -> res A) (a : A) (l : list B) : res A :=
  match l with [] => Ok a | b :: r => let* a := f a b in foldRes f a r end.
(** backup 455-587 *)
Definition backupProcessQueue (c : jobConf) (standbyMatch : str -> bool) (online : bool) (targets : list (Z * str)) (files : list mfile) :
    res (list (list mfile) * Z) :=
  let targets := targetList targets in
  let* (queues, size, total, control) :=
    foldRes (backupQueueFile c standbyMatch targets) (repeat [] (length targets + if jcStandby c then 1 else 0), 0, 0, false) files in
  if negb control && online then Err EFileMissing
  else if total =? 0 then Err EFileMissing
  else Ok (map (sortCmp (backupCmp c)) queues, size).

(** backup 590-610, restore 344-364: C integer arithmetic on small numbers *)
Definition jobQueueNext (clientIdx queueIdx queueTotal : Z) : Z :=
  let queueIdx := queueIdx + if clientIdx mod 2 =? 0 then 1 else -1 in
  if queueIdx <? 0 then queueTotal - 1 else if queueIdx =? queueTotal then 0 else queueIdx.

(** The scan of the queues, backup 638-760 and restore 388-498: [take] makes a job of the files at the head of a queue and returns the rest of
    the queue; [stay] says that the next queue is not looked at. *)
Definition queueSet (queues : list (list mfile)) (i : nat) (q : list mfile) : list (list mfile) :=
  firstn i queues ++ q :: skipn (S i) queues.
Section Scan.
  Context {J : Type}.
  Variable take : list mfile -> option (J * list mfile).
  Variable stay : bool.
  Variables clientIdx queueTotal queueOffset queueEnd : Z.
  Fixpoint jobScan (fuel : nat) (queueIdx : Z) (queues : list (list mfile)) : res (option J * list (list mfile)) :=
    match fuel with
    | O => Err EOther
    | S f =>
        let i := Z.to_nat (queueIdx + queueOffset) in
        match nth_error queues i with
        | None => UB
        | Some q =>
            match take q with
            | Some (j, q) => Ok (Some j, queueSet queues i q)
            | None =>
                let next := if stay then queueIdx else jobQueueNext clientIdx queueIdx queueTotal in
                if next =? queueEnd then Ok (None, queues) else jobScan f next queues
            end
        end
    end.
End Scan.

(** backup 639-738: the files taken from one queue and whether they are a bundle; [started] is param != NULL *)
Fixpoint backupTake (c : jobConf) (bundle started : bool) (fileSize : Z) (queue : list mfile) : bool * list mfile * list mfile :=
  match queue with
  | [] => (bundle, [], [])
  | f :: r =>
      let bundle := if started then bundle else bundle && (mfSize f <=? jcBundleLimit c) in
      let fileSize := fileSize + mfSizeOriginal f in
      if negb bundle || (jcBundleSize c <=? fileSize) then (bundle, [f], r)
      else let '(bundle, l, r) := backupTake c bundle true fileSize r in (bundle, f :: l, r)
  end.
(** fileTotal > 0 *)
Definition backupTakeJob (c : jobConf) (queue : list mfile) : option ((bool * list mfile) * list mfile) :=
  let '(bundle, l, r) := backupTake c (jcBundle c) false 0 queue in match l with [] => None | _ => Some ((bundle, l), r) end.
Record backupJobs := mkBackupJobs { bjQueues : list (list mfile); bjBundleId : Z }.
(** backup 612-765: the job is a bundle id (0 for a file on its own, whose key is its name) and files *)
Definition backupJobCallback (c : jobConf) (st : backupJobs) (clientIdx : Z) : res (option (Z * list mfile) * backupJobs) :=
  let queueOffset := if jcStandby c && (0 <? clientIdx) then 1 else 0 in
  let total := Z.of_nat (length (bjQueues st)) - queueOffset in
  let primary := jcStandby c && (clientIdx =? 0) in
  if negb primary && (total =? 0) then UB
  else
    let queueIdx := if primary then 0 else clientIdx mod total in
    let* (job, queues) := jobScan (backupTakeJob c) primary clientIdx total queueOffset queueIdx (S (length (bjQueues st))) queueIdx (bjQueues st) in
    match job with
    | None => Ok (None, mkBackupJobs queues (bjBundleId st))
    | Some (bundle, l) =>
        Ok (Some (if bundle : bool then bjBundleId st else 0, l), mkBackupJobs queues (if bundle then bjBundleId st + 1 else bjBundleId st))
    end.

(** * Restore *)
(** restore 7-74 *)
Definition restoreCmp (f1 f2 : mfile) : comparison :=
  if (mfSize f1 =? 0) && negb (mfSize f2 =? 0) then Gt
  else if negb (mfSize f1 =? 0) && (mfSize f2 =? 0) then Lt
  else if mfBundleId f1 <? mfBundleId f2 then Lt else if mfBundleId f2 <? mfBundleId f1 then Gt
  else if mfBundleId f1 =? 0 then
    if mfSize f1 <? mfSize f2 then Gt else if mfSize f2 <? mfSize f1 then Lt else strCmp (mfName f2) (mfName f1)
  else
    match referenceCmp (mfReference f1) (mfReference f2) with
    | Eq => if mfBundleOffset f1 <? mfBundleOffset f2 then Lt else Gt
    | x => x
    end.
(** restore 118-145 *)
Definition restoreQueueFile (targets : list str) (st : list (list mfile) * Z) (f : mfile) : res (list (list mfile) * Z) :=
  let (queues, size) := st in
  match targetFind (mfName f) targets with
  | None => Err EFormat
  | Some i => let* queues := queueAdd queues i f in Ok (queues, size + mfSize f)
  end.
(** restore 76-158 *)
Definition restoreProcessQueue (targets : list (Z * str)) (files : list mfile) : res (list (list mfile) * Z) :=
  let targets := targetList targets in
  let* (queues, size) := foldRes (restoreQueueFile targets) (repeat [] (length targets), 0) files in
  Ok (map (sortCmp restoreCmp) queues, size).

(** strEq() of strings that may be NULL *)
Definition referenceEqb (a b : option str) : bool :=
  match a, b with None, None => true | Some x, Some y => strEqb x y | _, _ => false end.
(** restore 390-485: once a file has been added; [bundleId] is not 0 *)
Fixpoint restoreTakeMore (bundleId : Z) (reference : option str) (queue : list mfile) : list mfile * list mfile :=
  match queue with
  | [] => ([], [])
  | f :: r =>
      if negb (bundleId =? mfBundleId f) || negb (referenceEqb reference (mfReference f)) then ([], queue)
      else let (l, r) := restoreTakeMore bundleId reference r in (f :: l, r)
  end.
Definition restoreTake (queue : list mfile) : option ((Z * list mfile) * list mfile) :=
  match queue with
  | [] => None
  | f :: r =>
      if mfBundleId f =? 0 then Some ((0, [f]), r)
      else let (l, r) := restoreTakeMore (mfBundleId f) (mfReference f) r in Some ((mfBundleId f, f :: l), r)
  end.
(** restore 366-504 *)
Definition restoreJobCallback (queues : list (list mfile)) (clientIdx : Z) : res (option (Z * list mfile) * list (list mfile)) :=
  let total := Z.of_nat (length queues) in
  if total =? 0 then UB
  else let queueIdx := clientIdx mod total in jobScan restoreTake false clientIdx total 0 queueIdx (S (length queues)) queueIdx queues.
