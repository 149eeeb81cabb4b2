(** Block incremental filter: src/command/backup/blockIncr.c, block checksum filter: src/command/restore/blockChecksum.c,
    size filter: src/common/io/filter/size.c.

    The hash of a block (xxHashOne), the encoding of a super block by the compress and encrypt filters and the encryption of the map are
    parameters.  Encryption is randomized, so the encodings take the number of the encoding.  Offsets and sizes are exact integers, file
    sizes near 2^64 are not modelled.  What the filters have already written to blockOut before the super block is closed (blockIncr.c:163)
    is not visible until blockOutWrite is closed; the model keeps the raw super block and encodes it on close. *)
From Verif Require Import Base Str BlockMapModel.
Open Scope Z_scope.

(** blockIncr.c:24-55.  [bRaw] is blockOutWrite with what has been written to it, [bNonce] counts the encodings. *)
Record bi := mkBi { bBlk : list Z; bRaw : option (list Z); bList : list nat; bMap : list item; bOffset : Z; bSbNo : Z; bOutSize : nat; bNo : nat;
                    bMapWrite : bool; bMapSize : nat; bNonce : nat; bOut : list Z; bOutOff : nat; bInOff : nat; bInSame : bool; bDone : bool }.

Section Filter.
  Variable hash : list Z -> list Z.
  Variable encB encM : nat -> list Z -> list Z.
  Variables (sbs bs : nat) (ref bundle : Z).
  Variable prior : option (list item).

  (** blockIncr.c:129-130: the item of the prior map *)
  Definition priorItem (n : nat) : option item := match prior with Some m => nth_error m n | None => None end.
  Definition priorSize : nat := match prior with Some m => length m | None => O end.

  (** blockIncr.c:120-196: hash and store or reference the block *)
  Definition blockStep (s : bi) : bi :=
    if (bDone s && negb (length (bBlk s) =? 0)%nat) || (length (bBlk s) =? bs)%nat then
      let sum := hash (bBlk s) in
      match priorItem (bNo s) with
      | Some it =>
          if strEqb (iSum it) sum then
            mkBi [] (bRaw s) (bList s) (bMap s ++ [it]) (bOffset s) (bSbNo s) (bOutSize s) (S (bNo s)) (bMapWrite s) (bMapSize s) (bNonce s) (bOut s) (bOutOff s) (bInOff s) (bInSame s) (bDone s)
          else
            mkBi [] (Some (match bRaw s with Some r => r | None => [] end ++ bBlk s)) (match bRaw s with Some _ => bList s | None => [] end ++ [length (bMap s)])
                 (bMap s ++ [mkItem ref (Z.of_nat sbs) bundle (bOffset s) 0 (bSbNo s) sum])
                 (bOffset s) (bSbNo s + 1) (bOutSize s + length (bBlk s)) (S (bNo s)) (bMapWrite s) (bMapSize s) (bNonce s) (bOut s) (bOutOff s) (bInOff s) (bInSame s) (bDone s)
      | None =>
          mkBi [] (Some (match bRaw s with Some r => r | None => [] end ++ bBlk s)) (match bRaw s with Some _ => bList s | None => [] end ++ [length (bMap s)])
               (bMap s ++ [mkItem ref (Z.of_nat sbs) bundle (bOffset s) 0 (bSbNo s) sum])
               (bOffset s) (bSbNo s + 1) (bOutSize s + length (bBlk s)) (S (bNo s)) (bMapWrite s) (bMapSize s) (bNonce s) (bOut s) (bOutOff s) (bInOff s) (bInSame s) (bDone s)
      end
    else s.

  (** blockIncr.c:208-215: the items of the super block get their sizes *)
  Definition setSizes (m : list item) (idx : list nat) (size sbsize : Z) : list item :=
    map (fun p : nat * item => let (i, x) := p in
           if existsb (Nat.eqb i) idx then mkItem (iRef x) sbsize (iBundle x) (iOff x) size (iBlock x) (iSum x) else x) (combine (seq 0 (length m)) m).

  (** blockIncr.c:199-233: close the super block *)
  Definition closeStep (s : bi) : bi :=
    match bRaw s with
    | Some r =>
        if bDone s || (sbs <=? bOutSize s)%nat then
          let e := encB (bNonce s) r in
          mkBi (bBlk s) None [] (setSizes (bMap s) (bList s) (Z.of_nat (length e)) (Z.of_nat (bOutSize s))) (bOffset s + Z.of_nat (length e)) 0 0 (bNo s) true (bMapSize s) (S (bNonce s))
               (bOut s ++ e) (bOutOff s) (bInOff s) (bInSame s) (bDone s)
        else s
    | None => s
    end.

  (** blockIncr.c:236-260: write the map *)
  Definition mapStep (s : bi) : res bi :=
    if bDone s && (bOutOff s =? 0)%nat && (bMapWrite s || (length (bMap s) <? priorSize)%nat) then
      let* w := blockMapWrite (Z.of_nat bs) (bMap s) in
      let e := encM (bNonce s) w in
      Ok (mkBi (bBlk s) (bRaw s) (bList s) (bMap s) (bOffset s) (bSbNo s) (bOutSize s) (bNo s) (bMapWrite s) (length e) (S (bNonce s)) (bOut s ++ e) (bOutOff s) (bInOff s) (bInSame s) (bDone s))
    else Ok s.

  (** blockIncr.c:263-288: copy to the output, of which [cap] bytes remain *)
  Definition flushStep (s : bi) (cap : nat) : bi * list Z :=
    match bRaw s with
    | Some _ => (s, [])
    | None =>
        let n := (length (bOut s) - bOutOff s)%nat in
        if (n =? 0)%nat then (s, [])
        else if (n <=? cap)%nat then
          (mkBi (bBlk s) (bRaw s) (bList s) (bMap s) (bOffset s) (bSbNo s) (bOutSize s) (bNo s) (bMapWrite s) (bMapSize s) (bNonce s) [] 0 (bInOff s) (negb (bInOff s =? 0)%nat) (bDone s), skipn (bOutOff s) (bOut s))
        else
          (mkBi (bBlk s) (bRaw s) (bList s) (bMap s) (bOffset s) (bSbNo s) (bOutSize s) (bNo s) (bMapWrite s) (bMapSize s) (bNonce s) (bOut s) (bOutOff s + cap)%nat (bInOff s) true (bDone s),
           firstn cap (skipn (bOutOff s) (bOut s)))
    end.

  (** blockIncr.c:95-117: get more block data *)
  Definition inputStep (s : bi) (input : list Z) : bi :=
    if negb (bDone s) && (bOutOff s =? 0)%nat then
      let remains := (bs - length (bBlk s))%nat in
      if (length input - bInOff s <=? remains)%nat then
        mkBi (bBlk s ++ skipn (bInOff s) input) (bRaw s) (bList s) (bMap s) (bOffset s) (bSbNo s) (bOutSize s) (bNo s) (bMapWrite s) (bMapSize s) (bNonce s) (bOut s) (bOutOff s) 0 false (bDone s)
      else
        mkBi (bBlk s ++ firstn remains (skipn (bInOff s) input)) (bRaw s) (bList s) (bMap s) (bOffset s) (bSbNo s) (bOutSize s) (bNo s) (bMapWrite s) (bMapSize s) (bNonce s) (bOut s) (bOutOff s)
             (bInOff s + remains)%nat true (bDone s)
    else s.

  (** blockIncr.c:92-290: the loop.  [used] tells whether there is something in the output already. *)
  Fixpoint incrLoop (fuel : nat) (s : bi) (input : list Z) (used : bool) (cap : nat) : res (bi * list Z) :=
    match fuel with
    | O => UB
    | S fuel' =>
        let* s1 := mapStep (closeStep (blockStep (inputStep s input))) in
        let '(s2, o) := flushStep s1 cap in
        if bInSame s2 && negb (used || negb (length o =? 0)%nat) then incrLoop fuel' s2 input used cap else Ok (s2, o)
    end.

  (** blockIncr.c:75-293 blockIncrProcess, input NULL is None.  The loop runs at most once for each input byte and once more. *)
  Definition incrProcess (s : bi) (input : option (list Z)) (used : bool) (cap : nat) : res (bi * list Z) :=
    let s0 := mkBi (bBlk s) (bRaw s) (bList s) (bMap s) (bOffset s) (bSbNo s) (bOutSize s) (bNo s) (bMapWrite s) (bMapSize s) (bNonce s) (bOut s) (bOutOff s) (bInOff s) (bInSame s)
                   (match input with None => true | Some _ => false end) in
    let i := match input with Some l => l | None => [] end in
    incrLoop (S (S (length i))) s0 i used cap.

  (** blockIncr.c:361-420 blockIncrNew, with the rounded super block size as parameter [sbs] *)
  Definition incrNew (bundleOffset : Z) : bi := mkBi [] None [] [] bundleOffset 0 0 0 false 0 0 [] 0 0 false false.

  (** src/common/io/filter/group.c:230-352 for one filter: the same input is given again while the filter asks for it, the caller empties
      the output between calls.  [out n] is the state of the output (is there something in it, how many bytes remain) at call number [n]. *)
  Fixpoint feed (fuel : nat) (out : nat -> bool * nat) (n : nat) (s : bi) (input : option (list Z)) : res (bi * list Z * nat) :=
    match fuel with
    | O => UB
    | S fuel' =>
        let* (s', o) := incrProcess s input (fst (out n)) (snd (out n)) in
        if bInSame s' then let* (s'', o', n') := feed fuel' out (S n) s' input in Ok (s'', o ++ o', n') else Ok (s', o, S n)
    end.
  Fixpoint feedAll (fuel : nat) (out : nat -> bool * nat) (n : nat) (s : bi) (chunks : list (list Z)) : res (bi * list Z) :=
    match chunks with
    | [] => let* (s', o, _) := feed fuel out n s None in Ok (s', o)
    | c :: rest => let* (s', o, n') := feed fuel out n s (Some c) in let* (s'', o') := feedAll fuel out n' s' rest in Ok (s'', o ++ o')
    end.
  (** Everything the filter outputs for a file given in chunks, and the block map size of blockIncrResult (296-323) *)
  Definition incrRun (fuel : nat) (out : nat -> bool * nat) (bundleOffset : Z) (chunks : list (list Z)) : res (list Z * nat) :=
    let* (s, o) := feedAll fuel out 0 (incrNew bundleOffset) chunks in Ok (o, bMapSize s).
End Filter.

(** blockIncr.c:382: super block size rounded up to blocks *)
Definition superSize (sbs bs : nat) : nat := ((sbs / bs + (if sbs mod bs =? 0 then 0 else 1)) * bs)%nat.

(** * Block checksum filter *)
Section Checksum.
  Variable hash : list Z -> list Z.
  Variable bs : nat.
  (** blockChecksum.c:15-23.  The checksum in progress is the data given to it (None: no checksum object), the list is one string. *)
  Record bc := mkBc { cCur : option (list Z); cSize : nat; cList : list Z }.
  (** blockChecksum.c:52-88 *)
  Fixpoint checksumLoop (fuel : nat) (s : bc) (input : list Z) : bc :=
    match fuel with
    | O => s
    | S fuel' =>
        match input with
        | [] => s
        | _ =>
            let cur := match cCur s with Some d => d | None => [] end in
            let size := match cCur s with Some _ => cSize s | None => O end in
            let remains := (bs - size)%nat in
            let n := if (remains <? length input)%nat then remains else length input in
            let cur' := cur ++ firstn n input in
            let size' := (size + n)%nat in
            let s' := if (size' =? bs)%nat then mkBc None size' (cList s ++ hash cur') else mkBc (Some cur') size' (cList s) in
            checksumLoop fuel' s' (skipn n input)
        end
    end.
  (** blockChecksum.c:37-91 blockChecksumProcess *)
  Definition checksumProcess (s : bc) (input : list Z) : bc := checksumLoop (length input) s input.
  Definition checksumNew : bc := mkBc None 0 [].
  (** blockChecksum.c:97-125 blockChecksumResult *)
  Definition checksumResult (s : bc) : list Z := match cCur s with Some d => cList s ++ hash d | None => cList s end.
  Definition checksumRun (chunks : list (list Z)) : list Z := checksumResult (fold_left checksumProcess chunks checksumNew).
End Checksum.

(** size.c:41-56 ioSizeProcess *)
Definition sizeRun (chunks : list (list Z)) : Z := fold_left (fun n c => n + Z.of_nat (length c)) chunks 0.
