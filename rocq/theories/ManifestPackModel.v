(** Files of a manifest in memory.  Models the file functions of src/info/manifest/store.c.inc.

    A pack is a block of memory: a list of cells that hold one byte each, except that the 16 bytes of a StringPub (common/type/string.h:113-118)
    are 16 cells of which the first holds the size; the buffer of such a string is always right behind it.  Simplifications: the 512 bytes of
    buffer[] are not counted (at most 17 numbers of 10 bytes and 40 bytes of checksums); 1 << n is below 2^31. *)
From Verif Require Import Base Str ConvertModel.
Open Scope Z_scope.

(** manifest.h:123-156 ManifestFile; None is NULL *)
Record mfile := mkMfile {
  mfName : str; mfCopy : bool; mfDelta : bool; mfResume : bool; mfChecksumPage : bool; mfChecksumPageError : bool; mfMode : Z;
  mfSha1 : option (list Z); mfRepoSha1 : option (list Z); mfErrorList : option str;
  mfUser : option str; mfGroup : option str; mfReference : option str;
  mfBundleId : Z; mfBundleOffset : Z; mfBlockSize : Z; mfBlockChecksumSize : Z; mfBlockMapSize : Z;
  mfSize : Z; mfSizeOriginal : Z; mfSizeRepo : Z; mfTimestamp : Z }.

(** What packing depends on: manifest.c:25-33 and ManifestPub.referenceList *)
Record mctx := mkMctx { mxReferences : list str; mxOwners : list str; mxUser : option str; mxGroup : option str; mxMode : Z }.

(** store.c.inc:12-13, crypto/hash.h HASH_TYPE_SHA1_SIZE *)
Definition BLOCK_INCR_SIZE_FACTOR : Z := 8192.
Definition HASH_TYPE_SHA1_SIZE : nat := 20.

(** store.c.inc:73-92 *)
Definition fChecksum : Z := 0.
Definition fChecksumRepo : Z := 1.
Definition fReference : Z := 2.
Definition fBundle : Z := 3.
Definition fBlockIncr : Z := 4.
Definition fCopy : Z := 5.
Definition fDelta : Z := 6.
Definition fResume : Z := 7.
Definition fChecksumPage : Z := 8.
Definition fChecksumPageError : Z := 9.
Definition fChecksumPageErrorList : Z := 10.
Definition fSizeOriginal : Z := 11.
Definition fMode : Z := 12.
Definition fUser : Z := 13.
Definition fUserNull : Z := 14.
Definition fGroup : Z := 15.
Definition fGroupNull : Z := 16.

(** strEq() with NULL *)
Definition optStrEq (a b : option str) : bool :=
  match a, b with Some x, Some y => strEqb x y | None, None => true | _, _ => false end.
Definition isSome {A} (o : option A) : bool := match o with Some _ => true | None => false end.
(** stringList.c:278-296 with .required, on an unsorted list (list.c:189-215) *)
Fixpoint findIdx (l : list str) (s : str) : res Z :=
  match l with
  | [] => Err EAssert
  | x :: r => if strEqb x s then Ok 0 else let* i := findIdx r s in Ok (i + 1)
  end.
(** stringList.c:214-230 *)
Definition strLstAddIfMissing (l : list str) (s : str) : list str := if existsb (fun x => strEqb x s) l then l else l ++ [s].
(** strLstGet(): out of range is an AssertError of lstGet *)
Definition strLstGet (l : list str) (i : Z) : res str :=
  match nth_error l (Z.to_nat i) with Some s => Ok s | None => Err EAssert end.

(** macro.h:67 for StringPub, which is aligned to 8 bytes *)
Definition ALIGN_OFFSET (p : nat) : nat := (8 - p mod 8)%nat.
Definition STRINGPUB_SIZE : nat := 16.
Definition strPub (size : Z) : list Z := (size mod two32) :: repeat 0 15.

(** store.c.inc:110-166 *)
Definition packFlags (x : mctx) (f : mfile) : Z :=
  fold_left (fun a (p : bool * Z) => if fst p then Z.lor a (Z.shiftl 1 (snd p)) else a)
    [(isSome (mfSha1 f), fChecksum); (isSome (mfRepoSha1 f), fChecksumRepo); (mfCopy f, fCopy); (mfDelta f, fDelta); (mfResume f, fResume);
     (mfChecksumPage f, fChecksumPage); (mfChecksumPageError f, fChecksumPageError); (isSome (mfErrorList f), fChecksumPageErrorList);
     (isSome (mfReference f), fReference); (negb (mfBundleId f =? 0), fBundle); (negb (mfBlockSize f =? 0), fBlockIncr);
     (negb (mfSizeOriginal f =? mfSize f), fSizeOriginal); (negb (mfMode f =? mxMode x), fMode);
     (negb (isSome (mfUser f)), fUserNull); (isSome (mfUser f) && negb (optStrEq (mfUser f) (mxUser x)), fUser);
     (negb (isSome (mfGroup f)), fGroupNull); (isSome (mfGroup f) && negb (optStrEq (mfGroup f) (mxGroup x)), fGroup)] 0.

(** store.c.inc:71: the static variable is the state [bt]; -1 before the first call *)
Definition baseTimeSet (bt : Z) (f : mfile) : Z := if bt =? -1 then mfTimestamp f else bt.
(** Signed subtraction of time_t *)
Definition timeSub (a b : Z) : res Z := if (- two63 <=? a - b) && (a - b <? two63) then Ok (a - b) else UB.
Definition whenVarInt (b : bool) (v : Z) : res (list Z) := if b then toVarInt v else Ok [].
Definition whenIdx (b : bool) (l : list str) (s : option str) : res (list Z) :=
  if b then match s with Some s => let* i := findIdx l s in toVarInt i | None => UB end else Ok [].
Definition optBytes (o : option (list Z)) : list Z := match o with Some s => firstn HASH_TYPE_SHA1_SIZE s | None => [] end.

(** store.c.inc:168-247: what is put in buffer[] *)
Definition packData (x : mctx) (bt : Z) (f : mfile) : res (list Z) :=
  let flag := packFlags x f in
  let* b1 := toVarInt flag in
  let* b2 := toVarInt (mfSize f) in
  let* b3 := whenVarInt (Z.testbit flag fSizeOriginal) (mfSizeOriginal f) in
  let* d := timeSub bt (mfTimestamp f) in
  let* b4 := toVarInt (zigZag64 d) in
  let* b5 := whenIdx (isSome (mfReference f)) (mxReferences x) (mfReference f) in
  let* b6 := whenVarInt (Z.testbit flag fMode) (mfMode f) in
  let* b7 := whenIdx (Z.testbit flag fUser) (mxOwners x) (mfUser f) in
  let* b8 := whenIdx (Z.testbit flag fGroup) (mxOwners x) (mfGroup f) in
  let* b9 := toVarInt (mfSizeRepo f) in
  let* b10 := whenVarInt (Z.testbit flag fBundle) (mfBundleId f) in
  let* b11 := whenVarInt (Z.testbit flag fBundle) (mfBundleOffset f) in
  let* b12 := whenVarInt (Z.testbit flag fBlockIncr) (mfBlockSize f / BLOCK_INCR_SIZE_FACTOR) in
  let* b13 := whenVarInt (Z.testbit flag fBlockIncr) (mfBlockChecksumSize f) in
  let* b14 := whenVarInt (Z.testbit flag fBlockIncr) (mfBlockMapSize f) in
  Ok (b1 ++ b2 ++ b3 ++ b4 ++ optBytes (mfSha1 f) ++ optBytes (mfRepoSha1 f) ++ b5 ++ b6 ++ b7 ++ b8 ++ b9 ++ b10 ++ b11 ++ b12 ++ b13 ++ b14).
(** store.c.inc:94-282: the pack and the base time afterwards *)
Definition manifestFilePack (x : mctx) (bt : Z) (f : mfile) : res (list Z * Z) :=
  let bt := baseTimeSet bt f in
  let* data := packData x bt f in
  let nameSize := S (length (mfName f)) in
  Ok (strPub (Z.of_nat (length (mfName f))) ++ mfName f ++ [0] ++ data ++
      match mfErrorList f with
      | Some e => repeat 0 (ALIGN_OFFSET (nameSize + length data)) ++ strPub (Z.of_nat (length e)) ++ e ++ [0]
      | None => []
      end, bt).

(** Reading the memory: a string object, and a number of bytes; outside the block is undefined. *)
Definition readStrPub (p : list Z) : res (str * list Z) :=
  match p with
  | size :: _ =>
      let n := Z.to_nat size in
      let body := skipn STRINGPUB_SIZE p in
      if (n <? length body)%nat then Ok (firstn n body, skipn (S n) body) else UB
  | [] => UB
  end.
Definition readBytes (b : bool) (p : list Z) : res (option (list Z) * list Z) :=
  if b then if (length p <? HASH_TYPE_SHA1_SIZE)%nat then UB else Ok (Some (firstn HASH_TYPE_SHA1_SIZE p), skipn HASH_TYPE_SHA1_SIZE p)
  else Ok (None, p).
Definition readWhen (b : bool) (d : Z) (p : list Z) : res (Z * list Z) := if b then fromVarInt p else Ok (d, p).
(** (unsigned int)cvtUInt64FromVarInt128() is an index of [l] *)
Definition readIdx (b : bool) (l : list str) (d : option str) (p : list Z) : res (option str * list Z) :=
  if b then let* (i, p) := fromVarInt p in let* s := strLstGet l (i mod two32) in Ok (Some s, p) else Ok (d, p).

(** store.c.inc:284-388 *)
Definition manifestFileUnpack (x : mctx) (bt : Z) (pack : list Z) : res mfile :=
  let* (name, p) := readStrPub pack in
  let* (flag, p) := fromVarInt p in
  let* (size, p) := fromVarInt p in
  let* (sizeOriginal, p) := readWhen (Z.testbit flag fSizeOriginal) size p in
  let* (zz, p) := fromVarInt p in
  let* timestamp := timeSub bt (unZigZag64 zz) in
  let* (sha1, p) := readBytes (Z.testbit flag fChecksum) p in
  let* (repoSha1, p) := readBytes (Z.testbit flag fChecksumRepo) p in
  let* (reference, p) := readIdx (Z.testbit flag fReference) (mxReferences x) None p in
  let* (mode, p) := readWhen (Z.testbit flag fMode) (mxMode x) p in
  let* (user, p) := readIdx (Z.testbit flag fUser) (mxOwners x) (if Z.testbit flag fUserNull then None else mxUser x) p in
  let* (group, p) := readIdx (Z.testbit flag fGroup) (mxOwners x) (if Z.testbit flag fGroupNull then None else mxGroup x) p in
  let* (sizeRepo, p) := fromVarInt p in
  let* (bundleId, p) := readWhen (Z.testbit flag fBundle) 0 p in
  let* (bundleOffset, p) := readWhen (Z.testbit flag fBundle) 0 p in
  let* (blockSize, p) := readWhen (Z.testbit flag fBlockIncr) 0 p in
  let* (blockChecksumSize, p) := readWhen (Z.testbit flag fBlockIncr) 0 p in
  let* (blockMapSize, p) := readWhen (Z.testbit flag fBlockIncr) 0 p in
  let bufferPos := (length pack - length p)%nat in
  let* errorList :=
    if Z.testbit flag fChecksumPageErrorList
    then let* (e, _) := readStrPub (skipn (bufferPos + ALIGN_OFFSET bufferPos) pack) in Ok (Some e)
    else Ok None in
  Ok (mkMfile name (Z.testbit flag fCopy) (Z.testbit flag fDelta) (Z.testbit flag fResume) (Z.testbit flag fChecksumPage)
        (Z.testbit flag fChecksumPageError) (mode mod two32) sha1 repoSha1 errorList user group reference bundleId bundleOffset
        (blockSize * BLOCK_INCR_SIZE_FACTOR mod two64) blockChecksumSize blockMapSize size sizeOriginal sizeRepo timestamp).

(** The part of the manifest and of the static data that the file functions use *)
Record mfiles := mkMfiles { msCtx : mctx; msBase : Z; msPacks : list (list Z) }.
(** store.c.inc:20-33 *)
Definition ownerCache (x : mctx) (o : option str) : mctx :=
  match o with Some s => mkMctx (mxReferences x) (strLstAddIfMissing (mxOwners x) s) (mxUser x) (mxGroup x) (mxMode x) | None => x end.
(** store.c.inc:390-408 *)
Definition manifestFileAdd (s : mfiles) (f : mfile) : res mfiles :=
  let x := ownerCache (ownerCache (msCtx s) (mfUser f)) (mfGroup f) in
  let* (p, bt) := manifestFilePack x (msBase s) f in
  Ok (mkMfiles x bt (msPacks s ++ [p])).
(** store.c.inc:410-435, 519-538: the owner is not added to the owner list.  An index outside the list is excluded by the callers. *)
Definition manifestFileUpdateByIdx (s : mfiles) (i : nat) (f : mfile) : res mfiles :=
  if (i <? length (msPacks s))%nat then
    let* (p, bt) := manifestFilePack (msCtx s) (msBase s) f in
    Ok (mkMfiles (msCtx s) bt (firstn i (msPacks s) ++ p :: skipn (S i) (msPacks s)))
  else UB.
(** manifest.c:847-868 manifestBackupLabelSet: one more reference *)
Definition manifestReferenceAdd (s : mfiles) (r : str) : mfiles :=
  let x := msCtx s in mkMfiles (mkMctx (mxReferences x ++ [r]) (mxOwners x) (mxUser x) (mxGroup x) (mxMode x)) (msBase s) (msPacks s).
(** manifest.h manifestFile(): file by index *)
Definition manifestFile (s : mfiles) (i : nat) : res mfile :=
  match nth_error (msPacks s) i with Some p => manifestFileUnpack (msCtx s) (msBase s) p | None => Err EAssert end.
