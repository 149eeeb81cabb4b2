(** Selective restore: the databases whose files are restored as zeroes.  Models restoreSelectiveExpression() (src/command/restore/select.c.inc:228-),
    restoreFileZeroed() (src/command/restore/process.c.inc:164-177), its use (src/command/restore/restore.c:121-122) and pgDbIsTemplate(),
    pgDbIsSystem(), pgDbIsSystemId() and pgTablespaceId() (src/postgres/interface.c:136-167, 553-575).

    The names of the errors: EFormat is FormatError, EFileMissing is DbMissingError and EOptionInvalidValue is DbInvalidError.  Left out: logging.  The
    options are lists, an option that is not set is an empty list. *)
From Coq Require Import String.
From Verif Require Import Base Str NumModel ArchiveIdModel RegModel RegNameModel ManifestPackModel ManifestModel LinkCheckModel SpoolModel.
Open Scope Z_scope.
Open Scope list_scope.

(** interface.c:136-167; FirstNormalObjectId is 16384 *)
Definition pgDbIsTemplate (name : str) : bool := strEqb name (txt "template0") || strEqb name (txt "template1").
Definition pgDbIsSystem (name : str) : bool := strEqb name (txt "postgres") || pgDbIsTemplate name.
Definition pgDbIsSystemId (id : Z) : bool := id <? 16384.
(** interface.c:553-575 *)
Definition pgTablespaceId (pgVersion pgCatalogVersion : Z) : str := txt "PG_" ++ pgVersionToStr pgVersion ++ txt "_" ++ cvtUIntToZ pgCatalogVersion.

(** stringList.c strLstAddIfMissing() *)
Definition strLstAddIfMissing (l : list str) (s : str) : list str := if strLstExists l s then l else l ++ [s].
(** list.c:385-404 lstRemove(): the item is removed once *)
Fixpoint strLstRemove (l : list str) (s : str) : list str :=
  match l with [] => [] | x :: r => if strEqb x s then r else x :: strLstRemove r s end.
(** manifest.c manifestDbFindDefault() with default NULL *)
Definition manifestDbFind (dbs : list mdb) (name : str) : option mdb := List.find (fun d => strEqb (mdName d) name) dbs.

(** select.c.inc:249, 254-255: expressions for the version file of a database *)
Definition baseExp : str := txt "^pg_data/base/[0-9]+/PG_VERSION".
Definition tablespaceExp (tablespaceId : str) : str := txt "^pg_tblspc/[0-9]+/" ++ tablespaceId ++ txt "/[0-9]+/PG_VERSION".

(** select.c.inc:262-276 the system databases of the manifest *)
Definition systemDbs (dbs : list mdb) : list str :=
  map (fun d => cvtUIntToZ (mdId d)) (filter (fun d => pgDbIsSystem (mdName d) || pgDbIsSystemId (mdId d)) dbs).
(** select.c.inc:278-293 databases found by their version file; the two lists are the system databases and all databases *)
Fixpoint scanFiles (base tablespace : re) (files : list str) (sys all : list str) : res (list str * list str) :=
  match files with
  | [] => Ok (sys, all)
  | f :: r =>
    if regExpMatch base f || regExpMatch tablespace f then
      let dbId := strBase (strPath f) in
      let* id := cvtZToUInt 10 dbId in
      scanFiles base tablespace r (if pgDbIsSystemId id then strLstAddIfMissing sys dbId else sys) (strLstAddIfMissing all dbId)
    else scanFiles base tablespace r sys all
  end.
(** select.c.inc:313-323, 339-349 the id of a database given by its id or name *)
Definition resolveDb (dbs : list mdb) (dbList : list str) (db : str) : res str :=
  if strLstExists dbList db then Ok db
  else match manifestDbFind dbs db with
       | None => Err EFileMissing
       | Some d => if strLstExists dbList (cvtUIntToZ (mdId d)) then Ok (cvtUIntToZ (mdId d)) else Err EFileMissing
       end.
(** select.c.inc:304-327 *)
Fixpoint excludeIds (dbs : list mdb) (dbList exclude : list str) : res (list str) :=
  match exclude with
  | [] => Ok []
  | x :: r => let* id := resolveDb dbs dbList x in let* t := excludeIds dbs dbList r in Ok (id :: t)
  end.
(** select.c.inc:329-361: what is left of the databases *)
Fixpoint removeIncluded (dbs : list mdb) (sys excluded dbList include : list str) : res (list str) :=
  match include with
  | [] => Ok dbList
  | x :: r =>
    let* id := resolveDb dbs dbList x in
    if strLstExists sys id then Err EOptionInvalidValue
    else if strLstExists excluded id then Err EOptionInvalidValue
    else removeIncluded dbs sys excluded (strLstRemove dbList id) r
  end.
(** select.c.inc:387-410 the expression for the databases to be zeroed *)
Definition dbExp (targets : list mtarget) (tablespaceId db : str) : str :=
  txt "(^pg_data/base/" ++ db ++ txt "/)" ++
  flat_map (fun t => if mtTablespaceId t =? 0 then [] else txt "|(^" ++ mtName t ++ txt "/" ++ tablespaceId ++ txt "/" ++ db ++ txt "/)") targets.
Fixpoint zeroExpression (targets : list mtarget) (tablespaceId : str) (dbList : list str) : str :=
  match dbList with
  | [] => []
  | [db] => dbExp targets tablespaceId db
  | db :: r => dbExp targets tablespaceId db ++ txt "|" ++ zeroExpression targets tablespaceId r
  end.

(** select.c.inc:231-433 restoreSelectiveExpression; the manifest is its databases, file names, targets and PostgreSQL version *)
Definition restoreSelectiveExpression (dbs : list mdb) (files : list str) (targets : list mtarget) (pgVersion pgCatalogVersion : Z) (exclude include : list str) : res (option str) :=
  match exclude, include with
  | [], [] => Ok None
  | _, _ =>
    let tablespaceId := pgTablespaceId pgVersion pgCatalogVersion in
    let* base := regExpNew baseExp in
    let* tablespace := regExpNew (tablespaceExp tablespaceId) in
    let* (sys, all) := scanFiles base tablespace files (systemDbs dbs) (systemDbs dbs) in
    let dbList := strLstSortAsc all in
    match dbList with
    | [] => Err EFormat
    | _ =>
      let* excluded := excludeIds dbs dbList exclude in
      let* rest := removeIncluded dbs sys excluded dbList include in
      let zero :=
        match include with
        | [] => excluded
        | _ => strLstMergeAnti rest (strLstMergeAnti (strLstSortAsc sys) (strLstSortAsc excluded))
        end in
      Ok (match zero with [] => None | _ => Some (zeroExpression targets tablespaceId zero) end)
    end
  end.

(** process.c.inc:164-177 *)
Definition restoreFileZeroed (name : str) (zeroExp : option re) : bool :=
  match zeroExp with None => false | Some r => regExpMatch r name && negb (strEndsWith name (txt "/PG_VERSION")) end.
(** restore.c:121-122 *)
Definition restoreZeroExp (dbs : list mdb) (files : list str) (targets : list mtarget) (pgVersion pgCatalogVersion : Z) (exclude include : list str) : res (option re) :=
  let* e := restoreSelectiveExpression dbs files targets pgVersion pgCatalogVersion exclude include in
  match e with None => Ok None | Some e => let* r := regExpNew e in Ok (Some r) end.
