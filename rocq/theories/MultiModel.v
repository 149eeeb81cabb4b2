(** Reading ranges of several files as one stream.  Models the default driver of src/storage/readMulti.c:30-396.

    The contents of the files are a map from the name and version to the bytes, and do not change while they are read.  A file that is missing is an
    error when it is opened; the code may find that out with the first read (openAsync).  Retries of a failed read are left out.  Whether the end of
    a file is noticed with the last byte or only by the next read is up to the storage, so it is a parameter of each read.  [uint64_t] wraps. *)
From Verif Require Import Base Str.
Open Scope Z_scope.

(** Arithmetic of [uint64_t] *)
Definition wrap (x : Z) : Z := x mod 2 ^ 64.
(** readMulti.c:77 STORAGE_READ_MULTI_NO_LIMIT *)
Definition NO_LIMIT : Z := 2 ^ 64 - 1.
(** readMulti.c:68-72 StorageReadMultiRange *)
Record rng := mkRng { rOff : Z; rLim : Z }.
(** readMulti.c:54-63 StorageReadMultiRequest; no ranges are NULL *)
Record req := mkReq { qFile : str; qOff : Z; qLim : Z; qVer : option str; qRanges : list rng; qRead : Z }.
(** An open file: what is left of it and whether its end has been noticed *)
Record stream := mkStream { sData : list Z; sEof : bool }.
(** readMulti.c:29-41 StorageReadMultiDefault *)
Record multi := mkMulti { mReqs : list req; mQueue : list stream; mEof : bool }.

Section Files.
Variable content : str -> option str -> option (list Z).
Variable readOver : Z.
Variable queueMax : nat.

(** What an open file gives, from the offset and up to the limit, if any (readMulti.c:103-107 and the drivers of storages) *)
Definition cut (data : list Z) (off lim : Z) : list Z :=
  let from := skipn (Z.to_nat off) data in if lim =? NO_LIMIT then from else firstn (Z.to_nat lim) from.
(** readMulti.c:103-108 storageReadNew and ioReadOpen *)
Definition openReq (q : req) : res stream :=
  match content (qFile q) (qVer q) with None => Err EFileMissing | Some data => Ok (mkStream (cut data (qOff q) (qLim q)) false) end.
Fixpoint openAll (l : list req) : res (list stream) :=
  match l with [] => Ok [] | q :: t => let* s := openReq q in let* ss := openAll t in Ok (s :: ss) end.
(** readMulti.c:82-126 storageReadMultiDefaultQueue *)
Definition fill (prelim : bool) (m : multi) : res multi :=
  let n := length (mQueue m) in
  let found := skipn n (if prelim then removelast (mReqs m) else mReqs m) in
  let* new := if (n <? queueMax)%nat then openAll (firstn (queueMax - n) found) else Ok [] in
  let queue := mQueue m ++ new in
  Ok (mkMulti (mReqs m) queue (if match queue with [] => negb prelim | _ => false end then true else mEof m)).

(** readMulti.c:302-335, the prior request with a range added to it *)
Definition extend (p : req) (off lim : Z) : req :=
  let end_ := wrap (qOff p + qLim p) in
  let ranges :=
    if negb (off =? end_) then (match qRanges p with [] => [mkRng (qOff p) (qLim p)] | l => l end) ++ [mkRng off lim]
    else match qRanges p with
      | [] => []
      | l => let r := last l (mkRng 0 0) in removelast l ++ [mkRng (rOff r) (wrap (off - rOff r + lim))]
      end in
  mkReq (qFile p) (qOff p) (wrap (off - qOff p + lim)) (qVer p) ranges (qRead p).
(** One call of storageReadMultiAdd with the version known *)
Record add := mkAdd { aFile : str; aOff : Z; aLim : option Z; aVer : option str }.
(** readMulti.c:341-358, a request of its own *)
Definition addNew (m : multi) (a : add) : res multi :=
  fill true (mkMulti (mReqs m ++ [mkReq (aFile a) (aOff a) (match aLim a with None => NO_LIMIT | Some l => l end) (aVer a) [] 0]) (mQueue m) (mEof m)).
(** readMulti.c:271-361 storageReadMultiDefaultAdd; the name of the file is all that is compared *)
Definition addReq (m : multi) (a : add) : res multi :=
  match rev (mReqs m) with
  | p :: before =>
      if strEqb (qFile p) (aFile a) then
        if qLim p =? NO_LIMIT then Err EAssert else
        match aLim a with
        | None => Err EAssert
        | Some lim =>
            let end_ := wrap (qOff p + qLim p) in
            if aOff a <? end_ then Err EAssert
            else if aOff a - end_ <=? readOver then Ok (mkMulti (rev before ++ [extend p (aOff a) lim]) (mQueue m) (mEof m))
            else addNew m a
        end
      else addNew m a
  | [] => addNew m a
  end.
Fixpoint addAll (m : multi) (l : list add) : res multi :=
  match l with [] => Ok m | a :: t => let* m2 := addReq m a in addAll m2 t end.

(** src/common/io/read.c:100-150 ioRead into a buffer with room for [n] bytes.  Fewer bytes come just at the end of the file.  With a full buffer
    the end may have been noticed already: [early]. *)
Definition readIo (s : stream) (n : nat) (early : bool) : list Z * stream :=
  if sEof s || (n =? 0)%nat then ([], s)
  else
    let rest := skipn n (sData s) in
    let eof := if (length (sData s) <? n)%nat then true else if (length (sData s) =? n)%nat then early else false in
    (firstn n (sData s), mkStream rest eof).
(** readMulti.c:154-230 storageReadMultiDefault.  The bytes read over (ioLimitReadNew and ioReadDrain) are read at once. *)
Definition readMulti (m : multi) (n : nat) (early1 early2 : bool) : res (list Z * multi) :=
  if mEof m then UB else
  match mReqs m, mQueue m with
  | q :: qs, s :: ss =>
      let n1 := match qRanges q with
        | a :: _ :: _ => let remains := wrap (rLim a - qRead q) in if remains <? Z.of_nat n then Z.to_nat remains else n
        | _ => n
        end in
      let (got, s1) := readIo s n1 early1 in
      let (q2, s2) := match qRanges q with
        | [] => (q, s1)
        | a :: rest =>
            let done := wrap (qRead q + Z.of_nat (length got)) in
            match rest with
            | b :: _ =>
                if wrap (rLim a - done) =? 0
                then (mkReq (qFile q) (qOff q) (qLim q) (qVer q) rest 0, snd (readIo s1 (Z.to_nat (wrap (rOff b - wrap (rOff a + rLim a)))) early2))
                else (mkReq (qFile q) (qOff q) (qLim q) (qVer q) (a :: rest) done, s1)
            | [] => (mkReq (qFile q) (qOff q) (qLim q) (qVer q) [a] done, s1)
            end
        end in
      if sEof s2 then let* m2 := fill false (mkMulti qs ss (mEof m)) in Ok (got, m2)
      else Ok (got, mkMulti (q2 :: qs) (s2 :: ss) (mEof m))
  | _, _ => UB
  end.
(** Reads until the end (or until there are no more reads): the bytes and whether it is the end *)
Fixpoint reads (m : multi) (sched : list (nat * bool * bool)) : res (list Z * bool) :=
  if mEof m then Ok ([], true)
  else match sched with
  | [] => Ok ([], false)
  | (n, e1, e2) :: t => let* (got, m2) := readMulti m n e1 e2 in let* (rest, eof) := reads m2 t in Ok (got ++ rest, eof)
  end.
(** The ranges are added, the read is opened (readMulti.c:131-149) and then read *)
Definition readRanges (adds : list add) (sched : list (nat * bool * bool)) : res (list Z * bool) :=
  let* m := addAll (mkMulti [] [] false) adds in
  let* m2 := fill false m in
  reads m2 sched.
End Files.
