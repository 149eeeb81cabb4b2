(** archive-get.  Models src/command/archive/get/get.c and src/command/archive/get/file.c.

    A repository holds, for each archive id, files (name and content), as in PushModel: the 16 character directory of WAL segments is left out
    since it is a function of the name.  Failing calls are inputs.  The lists of WAL directories which are cached while several requests are
    checked (get.c:171-191) are read from the same content.  Warnings are reduced to their repository and error kind. *)
From Verif Require Import Base Str ConvertModel NumModel LsnModel WalExpireModel SpoolModel PushModel.
Open Scope Z_scope.

(** get.h ArchiveGetFile (the cipher is left out), get.c:88-100 *)
Record gfile := mkGFile { gfFile : str; gfRepo : nat; gfArchive : str; gfName : str }.
Record crepo := mkCRepo { crIdx : nat; crArchives : list str }.

(** get.c:158-163: the names listed for a single request: "^<24 characters>(.partial)-[0-f]{40}(ext){0,1}$", as find.c *)
Definition singleMatch (req name : str) : bool := segmentMatch req name.
(** get.c:181-200: several requests: "^<path>[0-F]{8}-[0-f]{40}(ext){0,1}$", then the names that begin with the request *)
Definition multiMatch (req name : str) : bool :=
  strEqb (firstn 16 name) (firstn 16 req) && (24 <=? length name)%nat && forallb isHexF (firstn 8 (skipn 16 name)) &&
  match skipn 24 name with
  | 45 :: r => (40 <=? length r)%nat && forallb isHexSum (firstn 40 r) && existsb (strEqb (skipn 40 r)) ([] :: compressExts)
  | _ => false
  end && strBeginsWith name req.

Section Find.
  Variable w : repos.
  (** Error of listing (or testing for) the request in an archive id of a repository *)
  Variable listErr : str -> nat -> str -> option errkind.

  (** get.c:150-242: the files of an archive id.  [strNewFmt("%s/%s/%s")] for WAL segments, else [strNewFmt("%s/%s")]. *)
  Definition archiveMatches (req : str) (single : bool) (r : nat) (a : str) : list gfile :=
    if walIsSegment req then
      map (fun n => mkGFile (a ++ 47 :: firstn 16 req ++ 47 :: n) r a n) (filter (if single then singleMatch req else multiMatch req) (map fst (w r a)))
    else if strLstExists (map fst (w r a)) req then [mkGFile (a ++ 47 :: req) r a req] else [].
  (** get.c:143-252: what was found in an archive id before an error in a later one stays *)
  Fixpoint repoMatches (req : str) (single : bool) (r : nat) (l : list str) : list gfile * bool :=
    match l with
    | [] => ([], false)
    | a :: rest =>
        match listErr req r a with
        | Some _ => ([], true)
        | None => let '(m, e) := repoMatches req single r rest in (archiveMatches req single r a ++ m, e)
        end
    end.
  (** get.c:139-253: all repositories, and the number of repositories with an error *)
  Fixpoint reposMatches (req : str) (single : bool) (l : list crepo) : list gfile * nat :=
    match l with
    | [] => ([], O)
    | c :: rest =>
        let '(m, e) := repoMatches req single (crIdx c) (crArchives c) in
        let '(m', n) := reposMatches req single rest in (m ++ m', ((if e then 1 else 0) + n)%nat)
    end.
  (** get.c:280-283 strLstAddIfMissing(hashList, strSubN(file, 25, 40)) *)
  Definition hashKey (f : gfile) : str := firstn 40 (skipn 25 (gfFile f)).
  Definition addIfMissing (l : list str) (s : str) : list str := if strLstExists l s then l else l ++ [s].
  Definition hashList (l : list gfile) : list str := fold_left (fun h f => addIfMissing h (hashKey f)) l [].

  Inductive findOut := FErr (k : errkind) | FMissing | FMap (l : list gfile).
  (** get.c:103-359 archiveGetFind.  The comparator of the match list is by file, but without a sort lstAdd keeps the order. *)
  Definition getFind (req : str) (single : bool) (cr : list crepo) : findOut :=
    let '(m, n) := reposMatches req single cr in
    if (n =? length cr)%nat then FErr ERepoInvalid
    else match m with
         | [] => FMissing
         | _ => if walIsSegment req && (1 <? length m)%nat && (1 <? length (hashList m))%nat then FErr EArchiveDuplicate else FMap m
         end.

  (** get.c:511-520: the requests in order until one is not found.  The result is the map and the error with its file. *)
  Fixpoint findAll (reqs : list str) (single : bool) (cr : list crepo) : list (str * list gfile) * option (errkind * str) :=
    match reqs with
    | [] => ([], None)
    | q :: rest =>
        match getFind q single cr with
        | FErr k => ([], Some (k, q))
        | FMissing => ([], None)
        | FMap l => let '(m, e) := findAll rest single cr in ((q, l) :: m, e)
        end
    end.
End Find.

(** What the check of a repository sees: archive.info (archive id, version, system id of the history, the current one first) and the list of
    archive ids in the repository. *)
Record repoInfo := mkRepoInfo { riInfo : res (list (str * Z * Z)); riPaths : res (list str) }.
(** get.c:426-465 *)
Fixpoint archiveIds (version systemId : Z) (first : bool) (l : list (str * Z * Z)) (paths : res (list str)) : res (list str) :=
  match l with
  | [] => Ok []
  | (a, v, s) :: rest =>
      if (s =? systemId) && (v =? version) then
        let* found := if first then Ok true else let* p := paths in Ok (strLstExists p a) in
        let* r := archiveIds version systemId false rest paths in Ok (if found then a :: r else r)
      else archiveIds version systemId false rest paths
  end.
(** get.c:394-486.  [only] is the repo option. *)
Fixpoint cacheRepos (version systemId : Z) (only : option nat) (idx : nat) (l : list repoInfo) : list crepo * list (nat * errkind) :=
  match l with
  | [] => ([], [])
  | i :: rest =>
      let '(cr, e) := cacheRepos version systemId only (S idx) rest in
      if match only with Some k => negb (Nat.eqb k idx) | None => false end then (cr, e)
      else match (let* h := riInfo i in archiveIds version systemId true h (riPaths i)) with
           | Ok [] => (cr, (idx, EArchiveMismatch) :: e)
           | Ok ids => (mkCRepo idx ids :: cr, e)
           | Err k => (cr, (idx, k) :: e)
           | UB => (cr, (idx, EOther) :: e)
           end
  end.
(** get.c:361-529 archiveGetCheck.  [control] is version, system id and whether the checkpoint is the invalid one written by restore;
    [label] tells whether backup_label exists.  Result: the map, the error with its file (None for all files), the warnings. *)
Record check := mkCheck { ckMap : list (str * list gfile); ckError : option (errkind * option str); ckWarn : list (nat * errkind) }.
(** get.c:522-523: sorted by request; lstSort is stable here *)
Definition mapSort (l : list (str * list gfile)) : list (str * list gfile) := sortBy fst strLeb l.
Definition getCheck (w : repos) (listErr : str -> nat -> str -> option errkind) (control : Z * Z * bool) (label : bool) (only : option nat) (infos : list repoInfo) (reqs : list str) : res check :=
  let '(version, systemId, invalid) := control in
  if invalid && negb label then Err EFormat
  else
    let '(cr, warns) := cacheRepos version systemId only 0 infos in
    match cr with
    | [] => Ok (mkCheck [] (Some (ERepoInvalid, None)) warns)
    | _ => let '(m, e) := findAll w listErr reqs (length reqs =? 1)%nat cr in
           Ok (mkCheck (mapSort m) (match e with Some (k, q) => Some (k, Some q) | None => None end) warns)
    end.

(** file.c:20-109 archiveGetFile: copy the first file that can be copied.  [read] gives the content after decryption and decompression. *)
Fixpoint getFile (read : gfile -> res data) (idx : nat) (l : list gfile) : res (nat * data) :=
  match l with
  | [] => Err EFileRead
  | f :: rest => match read f with Ok d => Ok (idx, d) | _ => getFile read (S idx) rest end
  end.

(** get.c:611-668 archiveGetSingle: the content, None when not found *)
Definition getSingle (w : repos) (listErr : str -> nat -> str -> option errkind) (read : gfile -> res data) (control : Z * Z * bool) (label : bool) (only : option nat) (infos : list repoInfo) (req : str) : res (option data) :=
  let* c := getCheck w listErr control label only infos [req] in
  match ckError c with
  | Some (k, _) => Err k
  | None => match ckMap c with
            | [] => Ok None
            | (_, l) :: _ => let* (_, d) := getFile read 0 l in Ok (Some d)
            end
  end.

(** get.c:534-605 queueNeed: the new spool directory and the segments to get.  [spool] is archive/<stanza>/in. *)
Definition queueNeed (spool : dir) (seg : str) (found : bool) (queueSize size : Z) : res (dir * list str) :=
  let* first := if found then walSegmentNext seg size else Ok seg in
  let total := (queueSize / size) mod two32 in
  let total := if total <? 2 then 2 else total in
  let* range := walSegmentRange first size (Z.to_nat total) in
  let ideal := strLstSortAsc range in
  let actual := strLstSortAsc (dirNames spool) in
  let keep := filter (fun f => strLstExists ideal f) actual in
  let remove := filter (fun f => negb (strLstExists ideal f) && (negb (strEndsWith f extOk) || negb (strLstExists actual (firstn (length f - length extOk) f)))) actual in
  let* spool' := dirRemoveAll spool remove in
  Ok (spool', filter (fun f => negb (strLstExists (strLstSortAsc keep) f)) ideal).

(** get.c:943-1112 cmdArchiveGetAsync: the spool directory after the requests.  [job] is the outcome of getting a file of the map: the content with its
    warnings, or an error code and message; the jobs may end in any order, [ckMap] is the list in the order they end.  Error codes and texts are inputs. *)
Section Async.
  Variable job : str -> list gfile -> (data * list str) + (Z * str).
  Variable codeOf : errkind -> Z.
  Variable message : str.                       (* message of the check *)
  (** strLstJoin(l, "\n") *)
  Fixpoint joinLines (l : list str) : str := match l with [] => [] | [x] => x | x :: r => x ++ 10 :: joinLines r end.
  (** get.c:1003-1059 *)
  Definition jobStep (warns : str -> list str) (d : res dir) (m : str * list gfile) : res dir :=
    let* d := d in
    let wl := warns (fst m) in
    match job (fst m) (snd m) with
    | inl (content, fw) =>
        let warning := joinLines wl ++ (match fw with [] => [] | _ => (match joinLines wl with [] => [] | _ => [10] end) ++ joinLines fw end) in
        let d1 := match warning with [] => d | _ => asyncOkWrite d (fst m) (Some warning) end in
        Ok (dirPut d1 (fst m) content)
    | inr (code, msg) => asyncErrorWrite d (Some (fst m)) code (msg ++ match joinLines wl with [] => [] | x => 10 :: x end)
    end.
  (** get.c:964-1105.  [warnList] are the texts of the warnings of the check. *)
  Definition getAsync (check : res check) (order : list (str * list gfile)) (warns : str -> list str) (warnList : list str) (globalCode : Z) (globalMessage : str) (reqs : list str) (d : dir) : res dir :=
    match check with
    | Ok c =>
        let* d1 := fold_left (jobStep warns) order (Ok d) in
        match ckError c with
        | Some (k, file) => asyncErrorWrite d1 file (codeOf k) (message ++ match warnList with [] => [] | _ => 10 :: joinLines warnList end)
        | None =>
            match nth_error reqs (length (ckMap c)) with
            | Some missing => Ok (asyncOkWrite d1 missing (match warnList with [] => None | _ => Some (joinLines warnList) end))
            | None => Ok d1
            end
        end
    | _ => asyncErrorWrite d None globalCode globalMessage
    end.
End Async.

(** get.c:706-875: the loop of archive-get with archive-async=y for a WAL segment.  In each iteration the spool directory before it is what other
    processes have made of the one left by the iteration before: [other].  [lock] is the result of cmdLockAcquireP, [own] of cmdLockOwn, [more]
    of waitMore.  [full] tells whether the rest of the queue is over half of its size.  Errors of storage and of pg_control are left out. *)
Inductive getOut := GotSpool (d : data) | GotSync (d : data) | NotFoundOk | NotFoundSync | GThrow (code : Z) (message : str) | GTimeout | GErr (k : errkind).
Section Loop.
  Variables (seg : str) (missingRetry : bool) (queueMax size : Z).
  Variables (other : nat -> dir -> dir) (lock own more full : nat -> bool).
  Variable sync : nat -> res (option data).
  Fixpoint getLoop (fuel : nat) (n : nat) (first forked : bool) (d0 : dir) : getOut * dir :=
    match fuel with
    | O => (GTimeout, d0)
    | S fuel' =>
        let d := other n d0 in
        let found := dirExists d seg in
        let retry := first && missingRetry in
        match asyncStatus d seg (negb first) (found || negb retry) with
        | Err k => (GErr k, d)
        | UB => (GErr EOther, d)
        | Ok (StThrow code msg) => (GThrow code msg, d)
        | Ok st =>
            let ok := match st with StTrue _ => true | _ => false end in
            let d1 := if ok then dirRemove d (seg ++ extOk) else d in
            if ok && negb found && negb retry then (NotFoundOk, d1)
            else
              let got := dirGet d1 seg in
              let d2 := if found then dirRemove d1 seg else d1 in
              let fork := negb forked && (negb found || negb (full n)) && lock n in
              match (if fork then let* (d3, _) := queueNeed d2 seg found queueMax size in Ok (asyncErrorClear d3 seg) else Ok d2) with
              | Err k => (GErr k, d2)
              | UB => (GErr EOther, d2)
              | Ok d3 =>
                  if negb found && negb first && negb (own n) then
                    match sync n with Ok (Some c) => (GotSync c, d3) | Ok None => (NotFoundSync, d3) | Err k => (GErr k, d3) | UB => (GErr EOther, d3) end
                  else match found, got with
                       | true, Some c => (GotSpool c, d3)
                       | true, None => (GErr EAssert, d3)
                       | false, _ => if more n then getLoop fuel' (S n) false (forked || fork) d3 else (GTimeout, d3)
                       end
              end
        end
    end.
End Loop.
