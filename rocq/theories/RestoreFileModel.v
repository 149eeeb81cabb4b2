(** Restore of a file: src/command/restore/blockDelta.c and restoreFile in src/command/restore/file.c.inc.

    A job with one file is modelled; the files of a job are independent apart from sharing one read of the bundle.  File contents are lists
    of bytes.  Modes, owners and failing system calls are not modelled.  The hash of blocks, the SHA-1 of files, decryption and decompression
    are parameters. *)
From Verif Require Import Base Str BlockMapModel BlockIncrModel.
Open Scope Z_scope.

(** blockDelta.c:23-28, 16-21 and blockDelta.h BlockDeltaRead.  The checksum of a block is stored but not used. *)
Record dBlock := mkDb { dbNo : Z; dbOff : nat }.
Record dSuper := mkDs { dsSbs : Z; dsSize : Z; dsBlocks : list dBlock }.
Record dRead := mkDr { drRef : Z; drBundle : Z; drOff : Z; drSize : Z; drSupers : list dSuper }.

(** blockDelta.c:95-108: must the block be updated? [sums] are the checksums of the existing file in one buffer (None for NULL). *)
Definition blockChanged (cs : nat) (sums : option (list Z)) (idx : nat) (x : item) : bool :=
  match sums with
  | None => true
  | Some s => (length s / cs <=? idx)%nat || negb (strEqb (iSum x) (firstn cs (skipn (idx * cs) s)))
  end.
Definition changedBlocks (cs : nat) (sums : option (list Z)) (m : list item) : list (nat * item) :=
  filter (fun p => blockChanged cs sums (fst p) (snd p)) (combine (seq 0 (length m)) m).

(** blockDelta.c:110-123: blocks by reference, references in the order they are found *)
Fixpoint refAdd (refs : list (Z * list (nat * item))) (p : nat * item) : list (Z * list (nat * item)) :=
  match refs with
  | [] => [(iRef (snd p), [p])]
  | (r, l) :: rest => if r =? iRef (snd p) then (r, l ++ [p]) :: rest else (r, l) :: refAdd rest p
  end.
Definition refGroups (l : list (nat * item)) : list (Z * list (nat * item)) := fold_left refAdd l [].
(** blockDelta.c:128: lstSort descending, the references differ *)
Fixpoint refInsert (p : Z * list (nat * item)) (l : list (Z * list (nat * item))) : list (Z * list (nat * item)) :=
  match l with
  | [] => [p]
  | q :: r => if fst q <? fst p then p :: q :: r else q :: refInsert p r
  end.
Definition refSort (l : list (Z * list (nat * item))) : list (Z * list (nat * item)) := fold_right refInsert [] l.

(** The last element of the list is what blockDeltaRead and blockDeltaSuperBlock point to. *)
Fixpoint updLast {A} (f : A -> A) (l : list A) : list A :=
  match l with [] => [] | [x] => [f x] | x :: r => x :: updLast f r end.

(** blockDelta.c:138-193: the reads of a reference *)
Fixpoint addReads (bs : nat) (reads : list dRead) (prior : option item) (l : list (nat * item)) : list dRead :=
  match l with
  | [] => reads
  | (idx, x) :: rest =>
      let newRead := match prior with None => true | Some p => negb (iOff p =? iOff x) && negb (iOff p + iSize p =? iOff x) end in
      let newSuper := match prior with None => true | Some p => negb (iOff p =? iOff x) end in
      let reads1 := if newRead then reads ++ [mkDr (iRef x) (iBundle x) (iOff x) 0 []] else reads in
      let reads2 := if newSuper then updLast (fun r => mkDr (drRef r) (drBundle r) (drOff r) (drSize r + iSize x) (drSupers r ++ [mkDs (iSbs x) (iSize x) []])) reads1 else reads1 in
      let reads3 := updLast (fun r => mkDr (drRef r) (drBundle r) (drOff r) (drSize r)
                                        (updLast (fun s => mkDs (dsSbs s) (dsSize s) (dsBlocks s ++ [mkDb (iBlock x) (idx * bs)])) (drSupers r))) reads2 in
      addReads bs reads3 (Some x) rest
  end.
(** blockDelta.c:57-201 blockDeltaNew *)
Definition blockDeltaNew (bs cs : nat) (m : list item) (sums : option (list Z)) : list dRead :=
  fold_left (fun reads g => addReads bs reads None (snd g)) (refSort (refGroups (changedBlocks cs sums m))) [].

Section Delta.
  Variable decB : list Z -> res (list Z).
  Variable bs : nat.
  (** blockDelta.c:258-286: read the blocks of a super block and return the wanted ones.  [cur] is blockData. *)
  Fixpoint superLoop (n : nat) (idx : Z) (raw : list Z) (cur : dBlock) (rest : list dBlock) : list (nat * list Z) * list Z :=
    match n with
    | O => ([], raw)
    | S n' =>
        if idx =? dbNo cur then
          let '(w, r) := superLoop n' (idx + 1) (skipn bs raw) (match rest with [] => cur | b :: _ => b end) (tl rest) in
          ((dbOff cur, firstn bs raw) :: w, r)
        else superLoop n' (idx + 1) (skipn bs raw) cur rest
    end.
  (** blockDelta.c:205-312 blockDeltaNext, all results for the super blocks of a read whose data is [data].  lstGet of a missing element is an
      AssertError. *)
  Fixpoint supersNext (data : list Z) (supers : list dSuper) : res (list (nat * list Z)) :=
    match supers with
    | [] => Ok []
    | s :: rest =>
        let size := Z.to_nat (dsSize s) in
        let* raw := decB (firstn size data) in
        match dsBlocks s with
        | [] => Err EAssert
        | b :: bl =>
            let '(w, rem) := superLoop (Z.to_nat (sbBlocks (Z.of_nat bs) (dsSbs s))) 0 raw b bl in
            match rem with
            | [] => let* w' := supersNext (skipn size data) rest in Ok (w ++ w')
            | _ => Err EFileRead
            end
        end
    end.
End Delta.

(** pwrite: writing past the end leaves zeroes in between *)
Definition writeAt (f : list Z) (off : nat) (d : list Z) : list Z :=
  match d with [] => f | _ => firstn off f ++ repeat 0 (off - length f) ++ d ++ skipn (off + length d) f end.

(** protocol between restore processes: file.h RestoreFile, without names, modes and owners.  [rfLimit] is the limit for bundled and block
    incremental files. *)
Record rfile := mkRf { rfSum : list Z; rfSize : nat; rfTime : Z; rfZero : bool; rfMapSize : nat; rfBs : nat; rfCs : nat; rfOffset : nat; rfLimit : option nat }.
Inductive rresult := RPreserve | RZero | RCopy.
Definition rres_eqb (a b : rresult) : bool := match a, b with RPreserve, RPreserve => true | RZero, RZero => true | RCopy, RCopy => true | _, _ => false end.

Section Restore.
  Variable hash : list Z -> list Z.
  Variable sha1 : list Z -> list Z.
  Variable decB decM decF : list Z -> res (list Z).
  (** The stored file of a reference and bundle, None when missing *)
  Variable repo : Z -> Z -> option (list Z).

  (** file.c.inc:285-316: the writes *)
  Fixpoint readsRun (bs : nat) (reads : list dRead) : res (list (nat * list Z)) :=
    match reads with
    | [] => Ok []
    | r :: rest =>
        match repo (drRef r) (drBundle r) with
        | None => Err EFileMissing
        | Some f =>
            let* w := supersNext decB bs (firstn (Z.to_nat (drSize r)) (skipn (Z.to_nat (drOff r)) f)) (drSupers r) in
            let* w' := readsRun bs rest in Ok (w ++ w')
        end
    end.

  (** file.c.inc:72-193: the delta decision.  The destination is its content and time, None if it does not exist.  The result is the
      decision, the content of the destination, which may have been truncated, and the block checksums. *)
  Definition deltaStep (delta deltaForce : bool) (copyTimeBegin : Z) (f : rfile) (dest : option (list Z * Z)) : rresult * option (list Z) * option (list Z) :=
    match dest with
    | None => (RCopy, None, None)
    | Some (c, t) =>
        if delta && negb (rfZero f) then
          if deltaForce then
            (if (length c =? rfSize f)%nat && (t =? rfTime f) && (t <? copyTimeBegin) then RPreserve else RCopy, Some c, None)
          else if (rfSize f <=? length c)%nat || (negb (rfMapSize f =? 0)%nat && negb (length c =? 0)%nat) then
            let c1 := if (rfSize f <? length c)%nat then firstn (rfSize f) c else c in
            let preserve := (rfSize f =? 0)%nat || ((length c1 =? rfSize f)%nat && strEqb (rfSum f) (sha1 c1)) in
            (if preserve then RPreserve else RCopy, Some c1,
             if negb (rfMapSize f =? 0)%nat && negb preserve then Some (checksumRun hash (rfBs f) [c1]) else None)
          else (RCopy, Some c, None)
        else (RCopy, Some c, None)
    end.

  (** file.c.inc:31-377 restoreFile for one file stored in [stored].  The result is the decision and the content of the destination. *)
  Definition restoreFile (delta deltaForce : bool) (copyTimeBegin : Z) (f : rfile) (stored : option (list Z)) (dest : option (list Z * Z)) : res (rresult * list Z) :=
    let '(r, d, sums) := deltaStep delta deltaForce copyTimeBegin f dest in
    match r with
    | RPreserve => Ok (RPreserve, match d with Some c => c | None => [] end)
    | RZero => UB
    | RCopy =>
        if (rfSize f =? 0)%nat || rfZero f then Ok (RZero, repeat 0 (if rfZero f then rfSize f else 0))
        else
          match stored with
          | None => Err EFileMissing
          | Some s =>
              let data := match rfLimit f with Some n => firstn n (skipn (rfOffset f) s) | None => skipn (rfOffset f) s end in
              let* c :=
                if negb (rfMapSize f =? 0)%nat then
                  let* mb := decM data in
                  let* (m, _) := blockMapRead (Z.of_nat (rfBs f)) (rfCs f) mb in
                  let* w := readsRun (rfBs f) (blockDeltaNew (rfBs f) (rfCs f) m sums) in
                  let base := match sums, d with Some _, Some c => c | _, _ => [] end in
                  Ok (fold_left (fun c p => writeAt c (fst p) (snd p)) w base)
                else decF data in
              if strEqb (rfSum f) (sha1 c) then Ok (RCopy, c) else Err EChecksum
          end
    end.
End Restore.
