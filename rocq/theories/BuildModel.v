(** Building the manifest from the data directory.  Models src/info/manifest/build.c.inc and the part of manifestNewBuild() (src/info/manifest/manifest.c:78-226)
    up to the removal of unlogged relations, which is in UnloggedModel.

    Storage is given by three functions on absolute paths: the entries of a directory in the order of the iterator (empty if the directory is missing, which is not
    an error, except for the data directory), what is at a path, and what is there after links are followed.  Errors of storage other than a missing destination
    are left out, and so are messages.  The depth of the recursion is bounded by a number; beyond it the result is undefined as for a stack that is too small.
    Lists of the manifest are kept in the order they are added to and sorted at the end (manifest.c:223-227). *)
From Coq Require Import String.
From Verif Require Import Base Str NumModel ManifestPackModel ManifestModel RegModel RegNameModel LinkCheckModel SpoolModel UnloggedModel.
Open Scope Z_scope.
Open Scope list_scope.

(** storage/info.h *)
Inductive btype := BPath | BFile | BLink | BSpecial.
Record binfo := mkBinfo { biName : str; biType : btype; biMode : Z; biUser : option str; biGroup : option str; biSize : Z; biTime : Z; biDest : str }.
Record bworld := mkBworld { bwList : str -> list binfo; bwInfo : str -> option binfo; bwFollow : str -> option binfo }.
(** build.c.inc:4-19 and the options of the manifest it uses.  Maps are lists of threshold and value.  [boTs] is the list of tablespaces of the database. *)
Record bopts := mkBopts { boVersion : Z; boTid : str; boOnline : bool; boChecksumPage : bool; boBundle : bool; boBlockIncr : bool; boStart : Z;
  boSizeMap : list (Z * Z); boAgeMap : list (Z * Z); boChecksumMap : list (Z * Z); boSingle : list str; boContent : list str; boTs : option (list (Z * str)) }.
(** manifest.h:86-113; [bfZero] is the checksum of an empty file *)
Record bfile := mkBfile { bfName : str; bfCopy : bool; bfZero : bool; bfMode : Z; bfUser : option str; bfGroup : option str; bfSize : Z; bfTime : Z;
  bfBlock : Z; bfBlockChecksum : Z; bfChecksumPage : bool }.
(** The manifest being built and the list of the link check *)
Record bman := mkBman { bmFiles : list bfile; bmPaths : list mpath; bmLinks : list mlink; bmTargets : list mtarget; bmCheck : list litem }.
Definition addFile (m : bman) (f : bfile) : bman := mkBman (bmFiles m ++ [f]) (bmPaths m) (bmLinks m) (bmTargets m) (bmCheck m).
Definition addPath (m : bman) (p : mpath) : bman := mkBman (bmFiles m) (bmPaths m ++ [p]) (bmLinks m) (bmTargets m) (bmCheck m).
Definition addLink (m : bman) (k : mlink) (t : mtarget) : bman := mkBman (bmFiles m) (bmPaths m) (bmLinks m ++ [k]) (bmTargets m ++ [t]) (bmCheck m).
Definition setCheck (m : bman) (c : list litem) : bman := mkBman (bmFiles m) (bmPaths m) (bmLinks m) (bmTargets m) c.

(** "%s/%s" *)
Definition sub (a b : str) : str := a ++ 47 :: b.
Definition sTblspc : str := sub pgData pgTblspc.
(** interface.c:713-721 *)
Definition pgWalPath (v : Z) : str := if 100000 <=? v then txt "pg_wal" else txt "pg_xlog".
(** manifest.c:132 *)
Definition walName (o : bopts) : str := sub pgData (pgWalPath (boVersion o)).

(** build.c.inc:34-44, 49-61, 84-94: the value of the first threshold that is reached *)
Fixpoint firstReached (map : list (Z * Z)) (x : Z) : option Z :=
  match map with [] => None | (t, v) :: r => if t <=? x then Some v else firstReached r x end.
(** build.c.inc:26-65; the product of two values of 32 bits is in the range of size_t *)
Definition blockIncrSize (o : bopts) (size time : Z) : Z :=
  let result := match firstReached (boSizeMap o) size with Some v => v | None => 0 end in
  if result =? 0 then 0 else match firstReached (boAgeMap o) (boStart o - time) with Some v => result * v | None => result end.
(** build.c.inc:71-96; blockIncr.h BLOCK_INCR_CHECKSUM_SIZE_MIN *)
Definition blockIncrChecksumSize (o : bopts) (blockSize : Z) : Z := match firstReached (boChecksumMap o) blockSize with Some v => v | None => 6 end.

(** build.c.inc:121-139 *)
Definition skipEntry (o : bopts) (name : str) (i : binfo) : bool := strBeginsWith (biName i) (txt "pgsql_tmp") || strLstExists (boSingle o) name.
(** build.c.inc:169-212: the contents of the path are left out *)
Definition skipContent (o : bopts) (parent name : str) (i : binfo) : bool :=
  strLstExists (boContent o) name ||
  (strEqb parent pgData && existsb (strEqb (biName i))
     [txt "pg_dynshmem"; txt "pg_notify"; txt "pg_replslot"; txt "pg_serial"; txt "pg_snapshots"; txt "pg_stat_tmp"; txt "pg_subtrans"]) ||
  (boOnline o && strEqb parent (walName o) && strEqb (biName i) (txt "archive_status")).
(** build.c.inc:250-255 *)
Definition internalInit (n : str) : res bool :=
  let p := txt "pg_internal.init" in
  if strBeginsWith n p then if (length n =? length p)%nat then Ok true else regExpMatchOne (txt "\.[0-9]+") (skipn (length p) n) else Ok false.
(** build.c.inc:261-277 *)
Definition skipRoot (v : Z) (n : str) : bool :=
  ((strEqb n (txt "recovery.signal") || strEqb n (txt "standby.signal")) && (120000 <=? v)) ||
  ((strEqb n (txt "recovery.conf") || strEqb n (txt "recovery.done")) && (v <? 120000)) ||
  strEqb n (txt "postgresql.auto.conf.tmp") || strEqb n (txt "backup_label") || strEqb n (txt "backup_label.old") ||
  ((strEqb n (txt "backup_manifest") || strEqb n (txt "backup_manifest.tmp")) && (130000 <=? v)) ||
  strEqb n (txt "postmaster.opts") || strEqb n (txt "postmaster.pid").
(** build.c.inc:246-291 *)
Definition skipFile (o : bopts) (temp : re) (parent : str) (db : bool) (i : binfo) : res bool :=
  let* init := if db then internalInit (biName i) else Ok false in
  Ok (init || (strEqb parent pgData && skipRoot (boVersion o) (biName i)) || (boOnline o && strEqb parent (walName o)) || (db && regExpMatch temp (biName i))).
(** build.c.inc:293-329 *)
Definition newFile (o : bopts) (name : str) (db : bool) (i : binfo) : bfile :=
  let zero := (biSize i =? 0) && boBundle o in
  let block := if negb (biSize i =? 0) && boBlockIncr o then blockIncrSize o (biSize i) (biTime i) else 0 in
  let check := if negb (biSize i =? 0) && boBlockIncr o then blockIncrChecksumSize o block else 0 in
  let page := db && boChecksumPage o && negb (strEndsWith name (txt "/pg_filenode.map")) && negb (strEndsWith name (txt "/PG_VERSION")) &&
    negb (strEqb name (txt "pg_data/global/pg_control")) in
  mkBfile name (negb zero) zero (biMode i) (biUser i) (biGroup i) (biSize i) (biTime i) block check page.

Definition findPathB (l : list mpath) (n : str) : option mpath := find (fun p => strEqb (mpName p) n) l.
(** build.c.inc:388-398: the last one of the list *)
Definition tsName (l : list (Z * str)) (id : Z) : option str := fold_left (fun r x => if fst x =? id then Some (snd x) else r) l None.
(** build.c.inc:373-452: the name of the target, the tablespace, the paths added.  manifestPathFind() throws AssertError. *)
Definition tablespace (o : bopts) (m : bman) (i : binfo) : res (bman * Z * str) :=
  let* id := cvtZToUInt 10 (biName i) in
  let* name :=
    match boTs o with
    | Some l => match tsName l id with Some n => Ok n | None => Err EAssert end
    | None => Ok (txt "ts" ++ biName i)
    end in
  match findPathB (bmPaths m) pgData with
  | None => Err EAssert
  | Some base =>
      let m := match findPathB (bmPaths m) pgTblspc with Some _ => m | None => addPath m (mkMpath pgTblspc (mpMode base) (mpUser base) (mpGroup base)) end in
      match findPathB (bmPaths m) sTblspc with
      | None => Err EAssert
      | Some t => Ok (addPath m (mkMpath (sub pgTblspc (biName i)) (mpMode t) (mpUser t) (mpGroup t)), id, name)
      end
  end.

Section Walk.
Variables (w : bworld) (o : bopts) (dbExp tempExp : re).
Definition rename (n : str) (i : binfo) : binfo := mkBinfo n (biType i) (biMode i) (biUser i) (biGroup i) (biSize i) (biTime i) (biDest i).

(** The loop over the entries of a directory, build.c.inc:221-230 and manifest.c:209-217 *)
Fixpoint buildList (one : binfo -> bman -> res bman) (l : list binfo) (m : bman) : res bman :=
  match l with [] => Ok m | i :: r => let* m := one i m in buildList one r m end.
(** build.c.inc:336-371, 453-495: a link.  EOther is LinkDestinationError; EFileOpen is the error of storageInfoP() for a missing file. *)
Definition buildLink (again : str -> str -> bool -> binfo -> bman -> res bman) (parent pgPath : str) (db : bool) (i : binfo) (m : bman) : res bman :=
  let* absolute := strPathAbsolute (biDest i) pgPath in
  let isLink := match bwInfo w absolute with Some j => match biType j with BLink => true | _ => false end | None => false end in
  if isLink then Err EOther
  else
    let link := mkMlink (sub parent (biName i)) (biDest i) (biUser i) (biGroup i) in
    let* x :=
      if strEqb parent sTblspc then
        let* y := tablespace o m i in
        let '(m, id, name) := y in
        Ok (m, sub pgTblspc (biName i), id, Some name, sub pgTblspc (biName i), sub pgPath (biName i), boTid o)
      else Ok (m, sub parent (biName i), 0, None, parent, pgPath, biName i) in
    let '(m, targetName, id, tsName, parent, pgPath, linkName) := x in
    let linked := bwFollow w (sub pgPath linkName) in
    let* target :=
      match linked with
      | Some j =>
          match biType j with
          | BPath => Ok (mkMtarget targetName false (biDest i) None id tsName)
          | _ => if id =? 0 then Ok (mkMtarget targetName false (strPath (biDest i)) (Some (strBase (biDest i))) id tsName) else Err EFormat
          end
      | None => Ok (mkMtarget targetName false (biDest i) None id tsName)
      end in
    let m := addLink m link target in
    let* check := manifestLinkCheckOne (bmTargets m) (bmCheck m) target in
    let m := setCheck m check in
    match linked with
    | None => Err EFileOpen
    | Some j => again parent pgPath db (rename linkName j) m
    end.
(** build.c.inc:99-508.  Errors of pg_tblspc are LinkExpectedError, EOptionInvalidValue here. *)
Fixpoint buildInfo (depth : nat) (parent pgPath : str) (db : bool) (i : binfo) (m : bman) : res bman :=
  match depth with
  | O => UB
  | S depth =>
      let name := sub parent (biName i) in
      if skipEntry o name i then Ok m
      else
        match biType i with
        | BPath =>
            if strEqb parent sTblspc then Err EOptionInvalidValue
            else
              let m := addPath m (mkMpath name (biMode i) (biUser i) (biGroup i)) in
              if skipContent o parent name i then Ok m
              else buildList (buildInfo depth name (sub pgPath (biName i)) (regExpMatch dbExp name)) (bwList w (sub pgPath (biName i))) m
        | BFile =>
            if strEqb parent sTblspc then Err EOptionInvalidValue
            else
              let* skip := skipFile o tempExp parent db i in
              if skip then Ok m else Ok (addFile m (newFile o name db i))
        | BLink => buildLink (buildInfo depth) parent pgPath db i m
        | BSpecial => Ok m
        end
  end.
End Walk.

(** manifest.c:145-173: contents of paths and single names that are excluded *)
Definition excludeContent (l : list str) : list str :=
  map (fun s => removelast (sub pgData s)) (filter (fun s => strEndsWith (sub pgData s) [47]) l).
Definition excludeSingle (l : list str) : list str := map (sub pgData) (filter (fun s => negb (strEndsWith (sub pgData s) [47])) l).
(** manifest.c:175-227; [root] is what is at the path of the data directory.  Sorting is by name (lstComparatorStr). *)
Definition manifestBuild (depth : nat) (w : bworld) (o : bopts) (pgPath : str) (root : binfo) : res bman :=
  let* dbExp := regExpNew (dbPathExp (boTid o)) in
  let* tempExp := regExpNew tempRelationExp in
  let m := mkBman [] [mkMpath pgData (biMode root) (biUser root) (biGroup root)] [] [mkMtarget pgData true pgPath None 0 None] [] in
  let* m := buildList (buildInfo w o dbExp tempExp depth pgData pgPath false) (bwList w pgPath) m in
  Ok (mkBman (sortBy bfName strLeb (bmFiles m)) (sortBy mpName strLeb (bmPaths m)) (sortBy mlName strLeb (bmLinks m)) (sortBy mtName strLeb (bmTargets m)) (bmCheck m)).
