(** Filter groups and the reads and writes that use them.  Models src/common/io/filter/group.c, src/common/io/filter/filter.c,
    src/common/io/filter/buffer.c, src/common/io/read.c and src/common/io/write.c.
    A filter is any driver: [D] is the type of the states of all drivers and the interface functions of filter/filter.h:22-47 are functions of a
    state.  A Buffer is the list of its used bytes with its size given separately; a NULL buffer is None.  The ASSERT()s are left out, the CHECK()s
    are there.  The loops take fuel: EOther stands for "still running".  Calls of a driver that throw are not modelled. *)
From Verif Require Import Base.
Open Scope Z_scope.

Section Group.
(** [isOut d]: interface.inOut is set.  [inOut d input n]: interface.inOut(): the new state and what is added to an output with room for [n] bytes.
    [procIn]: interface.in().  [same]: interface.inputSame(), false if not set.  [done]: interface.done(), None if not set.  [bufferNew] is the
    driver of ioBufferNew(). *)
Variables (D : Type) (isOut : D -> bool) (inOut : D -> option (list Z) -> nat -> D * list Z) (procIn : D -> list Z -> D) (same : D -> bool)
  (done : D -> option bool) (bufferNew : D).

Definition isSomeB {A} (o : option A) : bool := match o with Some _ => true | None => false end.
Definition emptyB (l : list Z) : bool := match l with [] => true | _ => false end.

(** filter.c:14-18 and group.c:28-35: IoFilter and IoFilterData: the driver, flushing, and the size and content of the output buffer.  The input and
    inputLocal pointers of group.c:190-205 refer to the output of the last filter with output before; see [fwd]. *)
Record flt := mkFlt { fD : D; fFlush : bool; fCap : nat; fOut : option (list Z) }.
Definition setOut (f : flt) (o : option (list Z)) : flt := mkFlt (fD f) (fFlush f) (fCap f) o.

(** filter.c:113-139; without done it is not inputSame *)
Definition finished (d : D) : bool := match done d with Some b => b | None => negb (same d) end.
Definition fDone (f : flt) : bool := if fFlush f then finished (fD f) else false.
(** filter.c:58-80 *)
Definition ioFilterProcessIn (f : flt) (input : option (list Z)) : res flt :=
  if match input with Some [] => true | _ => false end then Err EAssert
  else if fFlush f && isSomeB input then Err EAssert
  else match input with
       | None => Ok (mkFlt (fD f) true (fCap f) (fOut f))
       | Some s => Ok (mkFlt (procIn (fD f) s) (fFlush f) (fCap f) (fOut f))
       end.
(** filter.c:82-111; a NULL output is undefined *)
Definition ioFilterProcessInOut (f : flt) (input : option (list Z)) : res flt :=
  match fOut f with
  | None => UB
  | Some o =>
      if match input with Some [] => true | _ => false end then Err EAssert
      else if fFlush f && isSomeB input then Err EAssert
      else
        let f1 := mkFlt (fD f) (fFlush f || negb (isSomeB input)) (fCap f) (fOut f) in
        let f2 := if fDone f1 then f1
                  else let (d, a) := inOut (fD f) input (fCap f - length o) in mkFlt d (fFlush f1) (fCap f) (Some (o ++ a)) in
        if same (fD f2) && match fOut f2 with Some (_ :: _) => false | _ => true end then Err EAssert else Ok f2
  end.

(** bufFull(), bufUsed() == 0 *)
Definition outFull (f : flt) : bool := match fOut f with Some o => (fCap f <=? length o)%nat | None => false end.
Definition outZero (f : flt) : bool := match fOut f with Some [] => true | _ => false end.
(** bufUsedZero(inputLocal): the buffer is emptied even if the pointer to it is NULL by now *)
Definition bufZero (b : option (list Z)) : option (list Z) := match b with Some _ => Some [] | None => None end.

(** group.c:286-325, the for loop.  The filters from filterIdx on; [input] is what their input pointer refers to, up to and including the next filter
    with output; [loc] is inputLocal != NULL.  The result has this buffer afterwards, and whether pub.inputSame was set. *)
Fixpoint fwd (fs : list flt) (loc : bool) (input : option (list Z)) : res (list flt * option (list Z) * bool) :=
  match fs with
  | [] => Ok ([], input, false)
  | f :: r =>
      if isOut (fD f) then
        let next (g : flt) (input : option (list Z)) (s : bool) :=
          let g := if isSomeB (fOut g) && fDone g && outZero g then setOut g None else g in
          let* (r', o, s') := fwd r true (fOut g) in
          Ok (setOut g o :: r', input, s || s') in
        if fDone f then next f input false
        else
          let* g := ioFilterProcessInOut f input in
          let input := if same (fD g) then input else if loc then bufZero input else input in
          if negb (outFull g) && negb (fDone g) then Ok (g :: r, input, same (fD g)) else next g input (same (fD g))
      else
        let* g := if fDone f then Ok f else ioFilterProcessIn f input in
        let* (r', o, s) := fwd r loc input in
        Ok (g :: r', o, s)
  end.
(** The same from filter [k] on *)
Fixpoint fwdFrom (k : nat) (fs : list flt) (loc : bool) (input : option (list Z)) : res (list flt * option (list Z) * bool) :=
  match k, fs with
  | O, _ => fwd fs loc input
  | S _, [] => UB
  | S k, f :: r =>
      if isOut (fD f) then let* (r', o, s) := fwdFrom k r true (fOut f) in Ok (setOut f o :: r', input, s)
      else let* (r', o, s) := fwdFrom k r loc input in Ok (f :: r', o, s)
  end.
(** group.c:262-279: from the end of the list *)
Fixpoint lastSame (fs : list flt) : option nat :=
  match fs with
  | [] => None
  | f :: r => match lastSame r with Some k => Some (S k) | None => if same (fD f) then Some O else None end
  end.

(** group.h:24-32; the filters never change place *)
Record group := mkGroup { gFlts : list flt; gSame : bool; gDone : bool }.
(** The last filter, of which the output is that of the caller *)
Fixpoint setLast (fs : list flt) (cap : nat) (o : option (list Z)) : list flt :=
  match fs with [] => [] | [f] => [mkFlt (fD f) (fFlush f) cap o] | f :: r => f :: setLast r cap o end.
Fixpoint lastOut (fs : list flt) : list Z :=
  match fs with [] => [] | [f] => match fOut f with Some o => o | None => [] end | _ :: r => lastOut r end.
(** group.c:253-327 *)
Fixpoint processLoop (fuel : nat) (fs : list flt) (cap : nat) (sm : bool) (input : option (list Z)) : res (list flt) :=
  match fuel with
  | O => Err EOther
  | S fuel =>
      match (if sm then lastSame fs else Some O) with
      | None => Ok fs
      | Some k =>
          let* (fs, _, s) := fwdFrom k fs false input in
          if (length (lastOut fs) <? cap)%nat && (sm || s) then processLoop fuel fs cap true input else Ok fs
      end
  end.
(** group.c:228-353: the group and the output afterwards.  329-350 is the scan at the end. *)
Definition ioFilterGroupProcess (fuel : nat) (g : group) (input : option (list Z)) (cap : nat) (output : list Z) : res (group * list Z) :=
  let* fs := processLoop fuel (setLast (gFlts g) cap (Some output)) cap (gSame g) input in
  let sm := existsb (fun f => same (fD f)) fs in
  Ok (mkGroup fs sm (negb sm && forallb fDone fs), lastOut fs).

(** group.c:163-221: [size] is ioBufferSize() *)
Fixpoint openList (size : nat) (ds : list D) : list flt :=
  match ds with
  | [] => []
  | [d] => [mkFlt d false size None]
  | d :: r => mkFlt d false size (if isOut d then Some [] else None) :: openList size r
  end.
Definition withBuffer (ds : list D) : list D :=
  if match rev ds with d :: _ => isOut d | [] => false end then ds else ds ++ [bufferNew].
Definition ioFilterGroupOpen (size : nat) (ds : list D) : group := mkGroup (openList size (withBuffer ds)) false false.

(** * Read *)
(** [drvRead v n block]: interface.read() into an empty buffer with room for [n]; [drvEof]: interface.eof(); [blk]: interface.block *)
Variables (V : Type) (drvRead : V -> nat -> bool -> V * list Z) (drvEof : V -> bool) (blk : bool) (size : nat).

(** read.c:17-23: [ioOutput] is the internal output buffer from outputPos on; [ioUsed] is outputPos.  It is allocated when first used. *)
Record ioread := mkIoread { ioDrv : V; ioGroup : group; ioInput : option (list Z); ioEofAll : bool; ioOutput : list Z; ioUsed : nat }.
(** read.c:25-77 *)
Definition ioReadNewOpen (v : V) (ds : list D) : ioread := mkIoread v (ioFilterGroupOpen size ds) (Some []) false [] 0.
(** read.c:96-158: into a buffer of size [cap] with content [buf]; [used] is bufferUsedBegin *)
Fixpoint ioReadLoop (fuel : nat) (st : ioread) (cap : nat) (buf : list Z) (used : nat) (block : bool) : res (ioread * list Z) :=
  match fuel with
  | O => Err EOther
  | S fuel =>
      if ioEofAll st || (cap <=? length buf)%nat then Ok (st, buf)
      else
        let eof (st : ioread) := mkIoread (ioDrv st) (ioGroup st) (ioInput st) (drvEof (ioDrv st) && gDone (ioGroup st)) (ioOutput st) (ioUsed st) in
        if gSame (ioGroup st) then
          let* (g, buf) := ioFilterGroupProcess fuel (ioGroup st) (ioInput st) cap buf in
          ioReadLoop fuel (eof (mkIoread (ioDrv st) g (ioInput st) (ioEofAll st) (ioOutput st) (ioUsed st))) cap buf used block
        else
          let (v, input) :=
            if isSomeB (ioInput st) then
              if negb (drvEof (ioDrv st)) then
                let n := if blk && (cap - length buf <? size)%nat then (cap - length buf)%nat else size in
                let (v, s) := drvRead (ioDrv st) n block in (v, Some s)
              else (ioDrv st, None)
            else (ioDrv st, ioInput st) in
          let* (g, buf) := match input with
                           | Some [] => Ok (ioGroup st, buf)
                           | _ => ioFilterGroupProcess fuel (ioGroup st) input cap buf
                           end in
          let st := mkIoread v g input (ioEofAll st) (ioOutput st) (ioUsed st) in
          if negb block && (used <? length buf)%nat then Ok (st, buf)
          else ioReadLoop fuel (eof st) cap buf used block
  end.
Definition ioReadInternal (fuel : nat) (st : ioread) (cap : nat) (buf : list Z) (block : bool) : res (ioread * list Z) :=
  ioReadLoop fuel st cap buf (length buf) block.
(** bufCatSub() of as much of the internal output as fits *)
Definition takeOutput (st : ioread) (cap : nat) (buf : list Z) : ioread * list Z :=
  let n := Nat.min (length (ioOutput st)) (cap - length buf) in
  (mkIoread (ioDrv st) (ioGroup st) (ioInput st) (ioEofAll st) (skipn n (ioOutput st)) (ioUsed st + n), buf ++ firstn n (ioOutput st)).
(** read.c:162-197 *)
Definition ioRead (fuel : nat) (st : ioread) (cap : nat) (buf : list Z) : res (ioread * list Z) :=
  let (st, buf) := takeOutput st cap buf in ioReadInternal fuel st cap buf true.
(** read.c:199-263 *)
Fixpoint ioReadSmallLoop (fuel : nat) (st : ioread) (cap : nat) (buf : list Z) : res (ioread * list Z) :=
  match fuel with
  | O => Err EOther
  | S fuel =>
      let (st, buf) := takeOutput st cap buf in
      let* (st, buf) :=
        if (length buf <? cap)%nat then
          if (size <=? cap - length buf)%nat then ioReadInternal fuel st cap buf true
          else
            let* (st, out) := ioReadInternal fuel st size [] false in
            Ok (mkIoread (ioDrv st) (ioGroup st) (ioInput st) (ioEofAll st) out 0, buf)
        else Ok (st, buf) in
      if (length buf <? cap)%nat && negb (ioEofAll st) then ioReadSmallLoop fuel st cap buf else Ok (st, buf)
  end.
(** memchr() for a linefeed: what is before and after it *)
Fixpoint splitLf (s : list Z) : option (list Z * list Z) :=
  match s with
  | [] => None
  | c :: r => if c =? 10 then Some ([], r) else match splitLf r with Some (a, b) => Some (c :: a, b) | None => None end
  end.
(** read.c:268-350.  The line at the end of the file stays in the buffer.  The internal output is moved to the start before reading. *)
Fixpoint ioReadLine (fuel : nat) (st : ioread) (allowEof : bool) : res (ioread * list Z) :=
  match fuel with
  | O => Err EOther
  | S fuel =>
      match splitLf (ioOutput st) with
      | Some (line, rest) => Ok (mkIoread (ioDrv st) (ioGroup st) (ioInput st) (ioEofAll st) rest (ioUsed st + length line + 1), line)
      | None =>
          if (size <=? length (ioOutput st))%nat then Err EFileRead
          else if ioEofAll st then
            if allowEof then Ok (mkIoread (ioDrv st) (ioGroup st) (ioInput st) (ioEofAll st) (ioOutput st) 0, ioOutput st) else Err EFileRead
          else
            let* (st, out) := ioReadInternal fuel st size (ioOutput st) false in
            ioReadLine fuel (mkIoread (ioDrv st) (ioGroup st) (ioInput st) (ioEofAll st) out 0) allowEof
      end
  end.

(** * Write *)
(** write.c:17-27: the buffer to be written, and what interface.write() has been given so far, one element for each call *)
Record iowrite := mkIowrite { iwGroup : group; iwOutput : list Z; iwWritten : list (list Z) }.
Definition ioWriteNewOpen (ds : list D) : iowrite := mkIowrite (ioFilterGroupOpen size ds) [] [].
(** write.c:88-117 *)
Fixpoint ioWriteLoop (fuel : nat) (st : iowrite) (buffer : list Z) : res iowrite :=
  match fuel with
  | O => Err EOther
  | S fuel =>
      let* (g, out) := ioFilterGroupProcess fuel (iwGroup st) (Some buffer) size (iwOutput st) in
      let st := if (size - length out =? 0)%nat then mkIowrite g [] (iwWritten st ++ [out]) else mkIowrite g out (iwWritten st) in
      if gSame (iwGroup st) then ioWriteLoop fuel st buffer else Ok st
  end.
Definition ioWrite (fuel : nat) (st : iowrite) (buffer : list Z) : res iowrite := if emptyB buffer then Ok st else ioWriteLoop fuel st buffer.
(** write.c:262-299 *)
Fixpoint ioWriteClose (fuel : nat) (st : iowrite) : res iowrite :=
  match fuel with
  | O => Err EOther
  | S fuel =>
      let* (g, out) := ioFilterGroupProcess fuel (iwGroup st) None size (iwOutput st) in
      let st := if (size - length out =? 0)%nat || (gDone g && negb (emptyB out)) then mkIowrite g [] (iwWritten st ++ [out]) else mkIowrite g out (iwWritten st) in
      if gDone (iwGroup st) then Ok st else ioWriteClose fuel st
  end.
End Group.

(** * The buffer filter *)
(** buffer.c:16-20, 44-105: the position in the input and inputSame *)
Definition ioBufferProcess (d : nat * bool) (input : option (list Z)) (n : nat) : (nat * bool) * list Z :=
  match input with
  | Some s =>
      let pos := fst d in
      let copySize := Nat.min (length s - pos) n in
      let out := firstn copySize (skipn pos s) in
      if (pos + copySize =? length s)%nat then ((O, false), out) else ((pos + copySize, true)%nat, out)
  | None => (d, [])
  end.
