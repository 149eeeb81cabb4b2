(** archive-push.  Models src/command/archive/push/file.c:32-341 (archivePushFile), src/command/archive/push/push.c:204-294
    (archivePushCheck) and src/command/archive/find.c:62-197 (walSegmentFind with single = true and no timeout).

    A repository holds, for each archive id, files (name and content); the 16 character directory of WAL segments
    (src/storage/helper.c:316-327) is left out since it is a function of the name.  Storage failures are inputs: [env] tells which list,
    open, write and close calls fail.  A written file appears under its name when it is closed, complete or not at all (temporary file and
    rename, or an object store put); closing may fail before or after that.  The first read of the WAL (checksum) and the second (copy) see the
    same content; compression and encryption are functions.  Messages are reduced to their error kind. *)
From Verif Require Import Base Str ConvertModel NumModel WalExpireModel SpoolModel.
Open Scope Z_scope.

Definition data := list Z.
Definition repos := nat -> str -> list (str * data).      (* repository index, archive id -> files *)
Definition setFiles (w : repos) (r : nat) (a : str) (l : list (str * data)) : repos :=
  fun r' a' => if Nat.eqb r' r && strEqb a' a then l else w r' a'.
(** Storing a file replaces a file of that name. *)
Definition putFile (l : list (str * data)) (n : str) (c : data) : list (str * data) :=
  (n, c) :: filter (fun f => negb (strEqb (fst f) n)) l.

(** common.h:39 ".partial" *)
Definition extPartial : str := [46;112;97;114;116;105;97;108].
(** common.c:324-348 walIsSegment "^[0-F]{24}(\.partial){0,1}$" *)
Definition walIsSegment (s : str) : bool :=
  (24 <=? length s)%nat && forallb isHexF (firstn 24 s) && (strEqb (skipn 24 s) [] || strEqb (skipn 24 s) extPartial).
(** common.c:251-262 walIsPartial *)
Definition walIsPartial (s : str) : bool := strEndsWith s extPartial.

(** src/common/compress/helper.h:37 "(\.gz|\.lz4|\.zst|\.xz|\.bz2)" and [none] *)
Definition compressExts : list str := [[46;103;122]; [46;108;122;52]; [46;122;115;116]; [46;120;122]; [46;98;122;50]].
(** "[0-f]" *)
Definition isHexSum (c : Z) : bool := (48 <=? c) && (c <=? 102).
(** find.c:77-79: "^<segment>-[0-f]{40}(ext){0,1}$"; the dot before "partial" is not escaped, so any character matches there.  The segment
    is taken literally (its characters from ':' to '@' would be special only if it held '?'). *)
Definition segmentMatch (seg name : str) : bool :=
  let n := if walIsPartial seg then 32%nat else 24%nat in
  strEqb (firstn 24 name) (firstn 24 seg) &&
  (if walIsPartial seg then (32 <=? length name)%nat && strEqb (firstn 7 (skipn 25 name)) (skipn 1 extPartial) else true) &&
  match skipn n name with
  | 45 :: r => (40 <=? length r)%nat && forallb isHexSum (firstn 40 r) && existsb (strEqb (skipn 40 r)) ([] :: compressExts)
  | _ => false
  end.

(** Outcome of closing a file. *)
Inductive closeOut := ClOk | ClFail (e : errkind) | ClFailWritten (e : errkind).
Record env := mkEnv {
  enList : nat -> option errkind;             (* error listing repository r *)
  enOpen : nat -> option errkind;
  enWrite : nat -> nat -> option errkind;     (* error writing buffer k to repository r *)
  enClose : nat -> closeOut
}.

(** push/file.h: repository index and archive id; the cipher is the function [encrypt]. *)
Record repoData := mkRepoData { rdIdx : nat; rdArchiveId : str }.
Definition errEntry := (nat * errkind)%type.

(** find.c:62-197 with single and timeout 0 *)
Definition walSegmentFindOne (e : env) (w : repos) (r : repoData) (seg : str) : res (option str) :=
  match enList e (rdIdx r) with
  | Some k => Err k
  | None => match strLstSortAsc (filter (segmentMatch seg) (map fst (w (rdIdx r) (rdArchiveId r)))) with
            | [] => Ok None
            | [f] => Ok (Some f)
            | _ => Err EArchiveDuplicate
            end
  end.

Section Push.
  Variables (sha1hex : data -> str) (encrypt : nat -> data -> data).

  (** file.c:160-216: for each repository whether it needs a copy; errors; number of "already exists" warnings. *)
  Fixpoint pushFindLoop (e : env) (w : repos) (seg sum : str) (modeCheck : bool) (l : list repoData) (any : bool) (errs : list errEntry) (warns : list nat)
    : res (list bool * bool * list errEntry * list nat) :=
    match l with
    | [] => Ok ([], any, errs, warns)
    | r :: rest =>
        match walSegmentFindOne e w r seg with
        | Err k =>
            let* (cp, a, er, wn) := pushFindLoop e w seg sum modeCheck rest any (errs ++ [(rdIdx r, k)]) warns in Ok (false :: cp, a, er, wn)
        | UB => UB
        | Ok (Some f) =>
            if strEqb sum (firstn 40 (skipn (length seg + 1) f)) then
              let* (cp, a, er, wn) := pushFindLoop e w seg sum modeCheck rest any errs (if modeCheck then warns ++ [rdIdx r] else warns) in
              Ok (false :: cp, a, er, wn)
            else Err EArchiveDuplicate
        | Ok None =>
            let* (cp, a, er, wn) := pushFindLoop e w seg sum modeCheck rest true errs warns in Ok (true :: cp, a, er, wn)
        end
    end.

  (** file.c:56-92 archivePushFileIo over all repositories that still take part: [io] is the call, [None] when it succeeds. *)
  Fixpoint ioLoop (io : nat -> option errkind) (l : list repoData) (cp : list bool) (errs : list errEntry) : list bool * list errEntry :=
    match l, cp with
    | r :: rest, c :: cps =>
        let '(c', errs') := if c then match io (rdIdx r) with Some k => (false, errs ++ [(rdIdx r, k)]) | None => (true, errs) end else (c, errs) in
        let '(cps', errs2) := ioLoop io rest cps errs' in (c' :: cps', errs2)
    | _, _ => (cp, errs)
    end.
  (** file.c:279-302: every buffer read is written to the repositories that still take part. *)
  Fixpoint writeLoop (e : env) (l : list repoData) (k : nat) (chunks : list data) (cp : list bool) (errs : list errEntry) : list bool * list errEntry :=
    match chunks with
    | [] => (cp, errs)
    | _ :: rest => let '(cp', errs') := ioLoop (fun r => enWrite e r k) l cp errs in writeLoop e l (k + 1) rest cp' errs'
    end.
  (** file.c:307-316: closing stores the file. *)
  Fixpoint closeLoop (e : env) (l : list repoData) (cp : list bool) (dest : str) (content : data) (w : repos) (errs : list errEntry) : repos * list errEntry :=
    match l, cp with
    | r :: rest, c :: cps =>
        if c then
          let w' := setFiles w (rdIdx r) (rdArchiveId r) (putFile (w (rdIdx r) (rdArchiveId r)) dest (encrypt (rdIdx r) content)) in
          match enClose e (rdIdx r) with
          | ClOk => closeLoop e rest cps dest content w' errs
          | ClFail k => closeLoop e rest cps dest content w (errs ++ [(rdIdx r, k)])
          | ClFailWritten k => closeLoop e rest cps dest content w' (errs ++ [(rdIdx r, k)])
          end
        else closeLoop e rest cps dest content w errs
    | _, _ => (w, errs)
    end.

  Record pushArgs := mkPushArgs {
    paFile : str;                      (* archiveFile *)
    paWal : data;                      (* content of walSource *)
    paHeader : res (Z * Z);            (* version and system id in the WAL header (pgWalFromFile) *)
    paHeaderCheck : bool; paModeCheck : bool;
    paVersion : Z; paSystemId : Z;
    paExt : option str;                (* extension of the compression type, None for no compression *)
    paRepos : list repoData;
    paErrors : list errEntry;          (* priorErrorList *)
    paChunks : list data;              (* buffers read for the copy *)
    paReadError : option errkind       (* error opening, reading or closing the source for the copy *)
  }.

  (** file.c:95-341 archivePushFile: new content of the repositories and the warnings or error *)
  Definition archivePushFile (e : env) (w : repos) (a : pushArgs) : repos * res (list nat) :=
    let isSegment := walIsSegment (paFile a) in
    if match paRepos a with [] => true | _ => false end then (w, Err EAssert) else
    match (if paHeaderCheck a && isSegment then
             let* (v, s) := paHeader a in
             if negb (v =? paVersion a) || negb (s =? paSystemId a) then Err EArchiveMismatch else Ok tt
           else Ok tt) with
    | Err k => (w, Err k)
    | UB => (w, UB)
    | Ok _ =>
        let sum := sha1hex (paWal a) in
        match (if isSegment then pushFindLoop e w (paFile a) sum (paModeCheck a) (paRepos a) false (paErrors a) []
               else Ok (repeat true (length (paRepos a)), true, paErrors a, [])) with
        | Err k => (w, Err k)
        | UB => (w, UB)
        | Ok (cp, any, errs, warns) =>
            let dest0 := if isSegment then paFile a ++ 45 :: sum else paFile a in
            let finish (w' : repos) (errs' : list errEntry) :=
              (w', match errs' with [] => Ok warns | _ => Err ECommand end) in
            if any then
              let dest := match paExt a with Some x => if isSegment then dest0 ++ x else dest0 | None => dest0 end in
              match paReadError a with
              | Some k => (w, Err k)
              | None =>
                  let '(cp1, errs1) := ioLoop (enOpen e) (paRepos a) cp errs in
                  let '(cp2, errs2) := writeLoop e (paRepos a) 0 (paChunks a) cp1 errs1 in
                  let '(w', errs3) := closeLoop e (paRepos a) cp2 dest (concat (paChunks a)) w errs2 in
                  finish w' errs3
              end
            else finish w errs
        end
    end.

  (** push.c:204-294 archivePushCheck.  For each repository what loading archive.info gives: archive id, version and system id of the current
      cluster.  [pg] is the version and system id of pg_control, None when pg-path is not set. *)
  Fixpoint pushCheckLoop (pgSet : bool) (idx : nat) (infos : list (res (str * Z * Z))) (version systemId : Z) (l : list repoData) (errs : list errEntry)
    : Z * Z * list repoData * list errEntry :=
    match infos with
    | [] => (version, systemId, l, errs)
    | i :: rest =>
        match i with
        | Ok (aid, v, s) =>
            if (pgSet || (0 <? idx)%nat) && (negb (version =? v) || negb (systemId =? s))
            then pushCheckLoop pgSet (idx + 1) rest version systemId l (errs ++ [(idx, EArchiveMismatch)])
            else pushCheckLoop pgSet (idx + 1) rest v s (l ++ [mkRepoData idx aid]) errs
        | Err k => pushCheckLoop pgSet (idx + 1) rest version systemId l (errs ++ [(idx, k)])
        | UB => pushCheckLoop pgSet (idx + 1) rest version systemId l (errs ++ [(idx, EOther)])
        end
    end.
  Definition archivePushCheck (pg : option (Z * Z)) (infos : list (res (str * Z * Z))) : res (Z * Z * list repoData * list errEntry) :=
    let '(v0, s0, set) := match pg with Some (v, s) => (v, s, true) | None => (0, 0, false) end in
    let '(v, s, l, errs) := pushCheckLoop set 0 infos v0 s0 [] [] in
    match l with [] => Err ERepoInvalid | _ => Ok (v, s, l, errs) end.

  (** The arguments that come from the check, push.c:398-410, 466-480 *)
  Definition withCheck (a : pushArgs) (i : Z * Z * list repoData * list errEntry) : pushArgs :=
    let '(v, s, l, errs) := i in
    mkPushArgs (paFile a) (paWal a) (paHeader a) (paHeaderCheck a) (paModeCheck a) v s (paExt a) l errs (paChunks a) (paReadError a).

  (** push.c:296-430 cmdArchivePush with archive-async=n: None when the file was dropped.  [size] is the size of the first ready file. *)
  Record pushCmd := mkPushCmd { pcQueueMax : option Z; pcReady : list str; pcSize : Z; pcPg : option (Z * Z); pcInfos : list (res (str * Z * Z)) }.
  Definition cmdPushSync (e : env) (w : repos) (c : pushCmd) (a : pushArgs) : repos * res (option (list nat)) :=
    if match pcQueueMax c with Some q => pushDrop q (pcSize c) (pushReadyList (pcReady c)) | None => false end then (w, Ok None)
    else match archivePushCheck (pcPg c) (pcInfos c) with
         | Ok i => let '(w', r) := archivePushFile e w (withCheck a i) in (w', let* x := r in Ok (Some x))
         | Err k => (w, Err k)
         | UB => (w, UB)
         end.

  (** * Asynchronous push *)

  (** push.c:510-674 cmdArchivePushAsync.  [syJobs] are the WAL files whose job is not completed with the check result they are pushed with;
      [syDropped] records the WAL files dropped, it is not read by the code. *)
  Record sys := mkSys { syRepos : repos; sySpool : dir; syJobs : list str; syCheck : Z * Z * list repoData * list errEntry; syDropped : list str }.
  Definition setSpool (s : sys) (d : dir) : sys := mkSys (syRepos s) d (syJobs s) (syCheck s) (syDropped s).
  (** Inputs of a run: archive_status listed twice, size of the first ready file and of the first file to push, options, pg_control, archive.info of
      every repository, the drop warning, and code and message of a global error. *)
  Record runIn := mkRunIn {
    riNames : list str; riNames2 : list str; riReadySize : Z; riSegSize : Z; riQueueMax : option Z; riBatch : Z;
    riPg : Z * Z; riInfos : list (res (str * Z * Z)); riDropWarn : str; riCode : Z; riMessage : str }.
  (** push.c:667-671 *)
  Definition globalError (s : sys) (r : runIn) : res sys :=
    let* d := asyncErrorWrite (sySpool s) None (riCode r) (riMessage r) in Ok (setSpool s d).
  (** push.c:524-598: up to the creation of the executor.  Simplification: when listing or removing status files fails the spool is left as it
      was. *)
  Definition asyncBegin (s : sys) (r : runIn) : res sys :=
    match pushProcessList (sySpool s) (riNames r) with
    | Ok (d, l) =>
        let s1 := mkSys (syRepos s) d [] (syCheck s) (syDropped s) in
        match l with
        | [] => globalError s1 r
        | _ =>
            if match riQueueMax r with Some q => pushDrop q (riReadySize r) (pushReadyList (riNames2 r)) | None => false end
            then Ok (mkSys (syRepos s) (fold_left (fun d f => asyncOkWrite d f (Some (riDropWarn r))) l d) [] (syCheck s) (syDropped s ++ l))
            else match pushBatch (riBatch r) (riSegSize r) l with
                 | Ok l' => match archivePushCheck (Some (riPg r)) (riInfos r) with
                            | Ok i => Ok (mkSys (syRepos s) d l' i (syDropped s))
                            | _ => globalError s1 r
                            end
                 | _ => globalError s1 r
                 end
        end
    | _ => globalError s r
    end.
  (** push.c:604-655: job of [f] completes.  [warning] is the text of the warnings, [code] and [message] that of the error. *)
  Definition asyncJob (s : sys) (e : env) (f : str) (a : pushArgs) (warning : str) (code : Z) (message : str) : res sys :=
    let '(w', r) := archivePushFile e (syRepos s) (withCheck a (syCheck s)) in
    let jobs := filter (fun x => negb (strEqb x f)) (syJobs s) in
    match r with
    | Ok warns => Ok (mkSys w' (asyncOkWrite (sySpool s) f (match warns with [] => None | _ => Some warning end)) jobs (syCheck s) (syDropped s))
    | _ => let* d := asyncErrorWrite (sySpool s) (Some f) code message in Ok (mkSys w' d jobs (syCheck s) (syDropped s))
    end.

  (** Any interleaving of runs, completed jobs (in any order, some never completing), foreground commands clearing errors (push.c:365) and
      interrupted runs, for [n] configured repositories.  [pgWal] is the content of the WAL files (PostgreSQL leaves a file unchanged while it
      waits to be archived). *)
  Variable pgWal : str -> data.
  Inductive sysStep (n : nat) (s s' : sys) : Prop :=
  | st_begin r : length (riInfos r) = n -> asyncBegin s r = Ok s' -> sysStep n s s'
  | st_job e f a warning code message : In f (syJobs s) -> paFile a = f -> paWal a = pgWal f ->
      existsb (strEqb (match paExt a with Some x => x | None => [] end)) ([] :: compressExts) = true -> asyncJob s e f a warning code message = Ok s' -> sysStep n s s'
  | st_abort : s' = mkSys (syRepos s) (sySpool s) [] (syCheck s) (syDropped s) -> sysStep n s s'
  | st_global r : globalError s r = Ok s' -> sysStep n s s'
  | st_clear f : s' = setSpool s (asyncErrorClear (sySpool s) f) -> sysStep n s s'.
  Inductive sysReach (n : nat) (s0 : sys) : sys -> Prop :=
  | sr_init : sysReach n s0 s0
  | sr_step s s' : sysReach n s0 s -> sysStep n s s' -> sysReach n s0 s'.
End Push.
