(** Page checksums.  Models src/postgres/interface/page.c pgPageChecksum, src/command/backup/pageChecksum.c and the part of
    src/command/backup/process.c.inc that puts the result in the manifest.

    Machine: little endian, 64 bit.  A page is a list of bytes.  Simplifications: the result pack is the triple of its fields; the error array
    holds the block numbers (the pack stores them plus one as field ids, and reads them back minus one); logging is left out. *)
From Verif Require Import Base Str.
Open Scope nat_scope.

(** page.c:15-19, 70-76 *)
Definition parallelSum : nat := 32.
Definition fnvPrime : Z := 16777619.
Definition sumsInit : list Z :=
  [0x5b1f36e9; 0xb8525960; 0x02ab50aa; 0x1de66d2a; 0x79ff467a; 0x9bb9f8a3; 0x217e7cd2; 0x83e13d2c;
   0xf8d4474f; 0xe39eb970; 0x42c6ae16; 0x993216fa; 0x7b093b5d; 0x98daff3c; 0xf718902a; 0x0b1c9cdb;
   0xe58f764b; 0x187636bc; 0x5d7b3bb1; 0xe73de7de; 0x92bec979; 0xcca6c0b2; 0x304a0979; 0x85aa43d4;
   0x783125bb; 0x6ca8eaa2; 0xe407eac6; 0x4b5cfc3e; 0x9fbf8c76; 0x15ca20be; 0xf2ca9fd3; 0x959bd756]%Z.

(** page.c:22-27 CHECKSUM_ROUND, uint32_t arithmetic *)
Definition round (sum value : Z) : Z :=
  let tmp := Z.lxor sum value in Z.lxor ((tmp * fnvPrime) mod 2 ^ 32) (Z.shiftr tmp 17).

(** the page as uint32_t words, page.c:38-46 *)
Fixpoint words (l : list Z) : list Z :=
  match l with a :: b :: c :: d :: r => (a + 256 * b + 65536 * c + 16777216 * d)%Z :: words r | _ => [] end.

(** page.c:33-35: one row of 32 words, all rows *)
Fixpoint roundRow (sums row : list Z) : list Z :=
  match sums, row with s :: ss, v :: vs => round s v :: roundRow ss vs | _, _ => [] end.
Fixpoint roundRows (n : nat) (sums data : list Z) : list Z :=
  match n with O => sums | S n' => roundRows n' (roundRow sums (firstn parallelSum data)) (skipn parallelSum data) end.

(** page.c:66-67: pd_checksum (bytes 8 and 9) set to zero in the copy *)
Definition zeroChecksum (page : list Z) : list Z := firstn 8 page ++ [0; 0]%Z ++ skipn 10 page.

(** page.c:57-118.  The page size is one of the six valid ones (pgPageSizeCheck throws on others and is not reached, pageChecksum.c:240). *)
Definition pgPageChecksum (pageSize : nat) (page : list Z) (blockNo : Z) : Z :=
  let sums := roundRows (pageSize / (4 * parallelSum)) sumsInit (words (zeroChecksum page)) in
  let sums := map (fun s => round s 0) (map (fun s => round s 0) sums) in
  let result := fold_left Z.lxor sums 0%Z in
  ((Z.lxor result blockNo mod 65535) + 1)%Z.

(** static.vendor.h:177-190: pd_checksum at 8, pd_upper at 14 *)
Definition u16At (page : list Z) (o : nat) : Z := (nth o page 0 + 256 * nth (S o) page 0)%Z.
Definition pdChecksum (page : list Z) : Z := u16At page 8.
Definition pdUpper (page : list Z) : Z := u16At page 14.

(** pageChecksum.c:22-43, the fields that change *)
Record pageState := mkPs { psNo : Z; psValid : bool; psAlign : bool; psError : option (list Z) }.

Definition u32 (x : Z) : Z := (x mod 2 ^ 32)%Z.

Section Page.
  Variable segmentPageTotal : Z.
  Variable pageSize : nat.
  Variable headerCheck : bool.
  (** storageGetP of the page at an offset; None: the read throws because the file is gone *)
  Variable reread : Z -> option (list Z).

  (** pageChecksum.c:243-260 pageChecksumNew *)
  Definition pageNew (segmentNo : Z) : pageState := mkPs (u32 (segmentNo * segmentPageTotal)) true true None.

  (** pageChecksum.c:109-116: the page as size_t words is zero *)
  Definition pageZero (page : list Z) : bool := forallb (Z.eqb 0) (firstn (pageSize / 8 * 8) page).

  (** pageChecksum.c:99-151 for one complete page: true when the page is an error *)
  Definition pageCheck (page : list Z) (blockNo : Z) : res bool :=
    let key := if headerCheck then pdUpper page else pdChecksum page in
    let ok := if Z.eqb key 0 then pageZero page else Z.eqb (pdChecksum page) (pgPageChecksum pageSize page blockNo) in
    if ok then Ok false
    else match reread ((blockNo mod segmentPageTotal) * Z.of_nat pageSize) with
         | None => Err EFileMissing
         | Some page' => Ok (strEqb page' page)
         end.

  (** pageChecksum.c:87-167: pages pageIdx.. of a buffer *)
  Fixpoint pageLoop (input : list Z) (base : Z) (align : bool) (pageTotal : nat) (idx : nat) (n : nat) (error : option (list Z)) : res (option (list Z)) :=
    match n with
    | O => Ok error
    | S n' =>
        let page := firstn pageSize (skipn (idx * pageSize) input) in
        let blockNo := u32 (base + Z.of_nat idx) in
        let* bad := if align || (idx <? pageTotal - 1) then pageCheck page blockNo else Ok true in
        let error' := if bad then Some (match error with None => [] | Some l => l end ++ [blockNo]) else error in
        pageLoop input base align pageTotal (S idx) n' error'
    end.

  (** pageChecksum.c:51-173 pageChecksumProcess *)
  Definition pageProcess (s : pageState) (input : list Z) : res pageState :=
    let pageTotal := length input / pageSize in
    let pageRemainder := length input mod pageSize in
    let* (s, pageTotal) :=
      if pageRemainder =? 0 then Ok (s, pageTotal)
      else if negb (psAlign s) then Err EAssert
      else if 512 <=? pageRemainder then Ok (mkPs (psNo s) (psValid s) false (psError s), S pageTotal)
      else Ok (mkPs (psNo s) false false (psError s), pageTotal) in
    if psValid s then
      let* error := pageLoop input (psNo s) (psAlign s) pageTotal 0 pageTotal (psError s) in
      Ok (mkPs (u32 (psNo s + Z.of_nat pageTotal)) (psValid s) (psAlign s) error)
    else Ok s.

  (** the filter gets the buffers of the file in order *)
  Fixpoint pageRun (s : pageState) (bufs : list (list Z)) : res pageState :=
    match bufs with [] => Ok s | b :: r => let* s' := pageProcess s b in pageRun s' r end.
End Page.

(** pageChecksum.c:178-222 pageChecksumResult: the error array or null, valid, align *)
Definition pageResult (s : pageState) : option (list Z) * bool * bool :=
  match psError s with
  | Some l => (Some l, false, psAlign s)
  | None => (None, psValid s, psAlign s)
  end.

(** process.c.inc:5-32 backupJobResultPageChecksumOut *)
Inductive pageItem := Page (n : Z) | Range (a b : Z).
Definition pageOut (result : list pageItem) (pageBegin pageEnd : Z) : list pageItem :=
  result ++ [if Z.eqb pageBegin pageEnd then Page pageBegin else Range pageBegin pageEnd].

(** process.c.inc:34-95 backupJobResultPageChecksum *)
Fixpoint mergeLoop (result : list pageItem) (pageBegin pageEnd : Z) (l : list Z) : list pageItem :=
  match l with
  | [] => pageOut result pageBegin pageEnd
  | pageId :: r =>
      if Z.eqb pageId (u32 (pageEnd + 1)) then mergeLoop result pageBegin pageId r
      else mergeLoop (pageOut result pageBegin pageEnd) pageId pageId r
  end.
Definition pageMerge (error : option (list Z)) : res (option (list pageItem)) :=
  match error with
  | None => Ok None
  | Some [] => Err EFormat
  | Some (pageId :: r) => Ok (Some (mergeLoop [] pageId pageId r))
  end.

(** process.c.inc:214-243, 294-297: checksumPageError and checksumPageErrorList of the manifest *)
Definition pageManifest (result : option (list Z) * bool * bool) : res (bool * option (list pageItem)) :=
  let '(error, valid, align) := result in
  let* errorList := pageMerge error in
  if valid then Ok (false, errorList)
  else if negb align then Ok (true, None)
  else match errorList with
       | None => Err EFormat
       | Some [] => Err EFormat
       | Some l => Ok (true, Some l)
       end.

(** the whole path of one file: filter, result, manifest *)
Definition pageFile (segmentPageTotal : Z) (pageSize : nat) (headerCheck : bool) (reread : Z -> option (list Z)) (segmentNo : Z) (bufs : list (list Z)) :
    res (bool * option (list pageItem)) :=
  let* s := pageRun segmentPageTotal pageSize headerCheck reread (pageNew segmentPageTotal segmentNo) bufs in pageManifest (pageResult s).
