(** Saving and loading a manifest.  Models src/info/manifest/serialize.c.inc, src/info/manifest/manifest.c:44-71 and 671-765 and the functions that
    add databases, links, paths and targets (src/info/manifest/store.c.inc).

    The info file around the data is InfoModel.v, the files in memory are ManifestPackModel.v.  Simplifications: a StringId is its text (strIdToZN()
    and strIdFromZN() are inverse on the short texts used here); a Variant is the JSON value of the same type; encryption of the file is left out;
    sorting is by insertion (the names are distinct, so any sort gives the same list).  In a production build ASSERT() does nothing, so a NULL
    that is used as a string is undefined. *)
From Verif Require Import Base Str ConvertModel NumModel EncodeModel ArchiveIdModel JsonModel InfoModel ManifestPackModel.
Open Scope Z_scope.

(** * The manifest *)

(** manifest.h:51-71: None is NULL; the type is full, diff or incr *)
Record mbackup := mkMbackup { mbLabel : option str; mbPrior : option str; mbCopyStart : Z; mbStart : Z; mbStop : Z; mbType : str; mbBundle : bool; mbBundleRaw : bool; mbBlockIncr : bool; mbArchiveStart : option str; mbArchiveStop : option str; mbLsnStart : option str; mbLsnStop : option str }.
Definition setMbLabel (r : mbackup) (v : option str) : mbackup := mkMbackup v (mbPrior r) (mbCopyStart r) (mbStart r) (mbStop r) (mbType r) (mbBundle r) (mbBundleRaw r) (mbBlockIncr r) (mbArchiveStart r) (mbArchiveStop r) (mbLsnStart r) (mbLsnStop r).
Definition setMbPrior (r : mbackup) (v : option str) : mbackup := mkMbackup (mbLabel r) v (mbCopyStart r) (mbStart r) (mbStop r) (mbType r) (mbBundle r) (mbBundleRaw r) (mbBlockIncr r) (mbArchiveStart r) (mbArchiveStop r) (mbLsnStart r) (mbLsnStop r).
Definition setMbCopyStart (r : mbackup) (v : Z) : mbackup := mkMbackup (mbLabel r) (mbPrior r) v (mbStart r) (mbStop r) (mbType r) (mbBundle r) (mbBundleRaw r) (mbBlockIncr r) (mbArchiveStart r) (mbArchiveStop r) (mbLsnStart r) (mbLsnStop r).
Definition setMbStart (r : mbackup) (v : Z) : mbackup := mkMbackup (mbLabel r) (mbPrior r) (mbCopyStart r) v (mbStop r) (mbType r) (mbBundle r) (mbBundleRaw r) (mbBlockIncr r) (mbArchiveStart r) (mbArchiveStop r) (mbLsnStart r) (mbLsnStop r).
Definition setMbStop (r : mbackup) (v : Z) : mbackup := mkMbackup (mbLabel r) (mbPrior r) (mbCopyStart r) (mbStart r) v (mbType r) (mbBundle r) (mbBundleRaw r) (mbBlockIncr r) (mbArchiveStart r) (mbArchiveStop r) (mbLsnStart r) (mbLsnStop r).
Definition setMbType (r : mbackup) (v : str) : mbackup := mkMbackup (mbLabel r) (mbPrior r) (mbCopyStart r) (mbStart r) (mbStop r) v (mbBundle r) (mbBundleRaw r) (mbBlockIncr r) (mbArchiveStart r) (mbArchiveStop r) (mbLsnStart r) (mbLsnStop r).
Definition setMbBundle (r : mbackup) (v : bool) : mbackup := mkMbackup (mbLabel r) (mbPrior r) (mbCopyStart r) (mbStart r) (mbStop r) (mbType r) v (mbBundleRaw r) (mbBlockIncr r) (mbArchiveStart r) (mbArchiveStop r) (mbLsnStart r) (mbLsnStop r).
Definition setMbBundleRaw (r : mbackup) (v : bool) : mbackup := mkMbackup (mbLabel r) (mbPrior r) (mbCopyStart r) (mbStart r) (mbStop r) (mbType r) (mbBundle r) v (mbBlockIncr r) (mbArchiveStart r) (mbArchiveStop r) (mbLsnStart r) (mbLsnStop r).
Definition setMbBlockIncr (r : mbackup) (v : bool) : mbackup := mkMbackup (mbLabel r) (mbPrior r) (mbCopyStart r) (mbStart r) (mbStop r) (mbType r) (mbBundle r) (mbBundleRaw r) v (mbArchiveStart r) (mbArchiveStop r) (mbLsnStart r) (mbLsnStop r).
Definition setMbArchiveStart (r : mbackup) (v : option str) : mbackup := mkMbackup (mbLabel r) (mbPrior r) (mbCopyStart r) (mbStart r) (mbStop r) (mbType r) (mbBundle r) (mbBundleRaw r) (mbBlockIncr r) v (mbArchiveStop r) (mbLsnStart r) (mbLsnStop r).
Definition setMbArchiveStop (r : mbackup) (v : option str) : mbackup := mkMbackup (mbLabel r) (mbPrior r) (mbCopyStart r) (mbStart r) (mbStop r) (mbType r) (mbBundle r) (mbBundleRaw r) (mbBlockIncr r) (mbArchiveStart r) v (mbLsnStart r) (mbLsnStop r).
Definition setMbLsnStart (r : mbackup) (v : option str) : mbackup := mkMbackup (mbLabel r) (mbPrior r) (mbCopyStart r) (mbStart r) (mbStop r) (mbType r) (mbBundle r) (mbBundleRaw r) (mbBlockIncr r) (mbArchiveStart r) (mbArchiveStop r) v (mbLsnStop r).
Definition setMbLsnStop (r : mbackup) (v : option str) : mbackup := mkMbackup (mbLabel r) (mbPrior r) (mbCopyStart r) (mbStart r) (mbStop r) (mbType r) (mbBundle r) (mbBundleRaw r) (mbBlockIncr r) (mbArchiveStart r) (mbArchiveStop r) (mbLsnStart r) v.
(** manifest.h:73-76 *)
Record mpg := mkMpg { mgId : Z; mgVersion : Z; mgSystemId : Z; mgCatalog : Z }.
Definition setMgId (r : mpg) (v : Z) : mpg := mkMpg v (mgVersion r) (mgSystemId r) (mgCatalog r).
Definition setMgVersion (r : mpg) (v : Z) : mpg := mkMpg (mgId r) v (mgSystemId r) (mgCatalog r).
Definition setMgSystemId (r : mpg) (v : Z) : mpg := mkMpg (mgId r) (mgVersion r) v (mgCatalog r).
Definition setMgCatalog (r : mpg) (v : Z) : mpg := mkMpg (mgId r) (mgVersion r) (mgSystemId r) v.
(** compress/helper.h:15-27, helper.c:36-110: the types in order with their names *)
Inductive ctype := CNone | CBz2 | CGz | CLz4 | CZst | CXz.
Definition ctypes : list ctype := [CNone; CBz2; CGz; CLz4; CZst; CXz].
Definition compressTypeStr (t : ctype) : str :=
  match t with
  | CNone => [110;111;110;101] | CBz2 => [98;122;50] | CGz => [103;122]
  | CLz4 => [108;122;52] | CZst => [122;115;116] | CXz => [120;122]
  end.
(** helper.c:103-127 *)
Definition compressTypeEnum (s : str) : res ctype :=
  match find (fun t => strEqb s (compressTypeStr t)) ctypes with Some t => Ok t | None => Err EAssert end.
(** manifest.h:80-91 *)
Record moption := mkMoption { moArchiveCheck : bool; moArchiveCopy : bool; moStandby : option jvar; moBufferSize : option jvar; moChecksumPage : option jvar; moCompressType : ctype; moCompressLevel : option jvar; moCompressLevelNetwork : option jvar; moDelta : option jvar; moHardLink : bool; moOnline : bool; moProcessMax : option jvar }.
Definition setMoArchiveCheck (r : moption) (v : bool) : moption := mkMoption v (moArchiveCopy r) (moStandby r) (moBufferSize r) (moChecksumPage r) (moCompressType r) (moCompressLevel r) (moCompressLevelNetwork r) (moDelta r) (moHardLink r) (moOnline r) (moProcessMax r).
Definition setMoArchiveCopy (r : moption) (v : bool) : moption := mkMoption (moArchiveCheck r) v (moStandby r) (moBufferSize r) (moChecksumPage r) (moCompressType r) (moCompressLevel r) (moCompressLevelNetwork r) (moDelta r) (moHardLink r) (moOnline r) (moProcessMax r).
Definition setMoStandby (r : moption) (v : option jvar) : moption := mkMoption (moArchiveCheck r) (moArchiveCopy r) v (moBufferSize r) (moChecksumPage r) (moCompressType r) (moCompressLevel r) (moCompressLevelNetwork r) (moDelta r) (moHardLink r) (moOnline r) (moProcessMax r).
Definition setMoBufferSize (r : moption) (v : option jvar) : moption := mkMoption (moArchiveCheck r) (moArchiveCopy r) (moStandby r) v (moChecksumPage r) (moCompressType r) (moCompressLevel r) (moCompressLevelNetwork r) (moDelta r) (moHardLink r) (moOnline r) (moProcessMax r).
Definition setMoChecksumPage (r : moption) (v : option jvar) : moption := mkMoption (moArchiveCheck r) (moArchiveCopy r) (moStandby r) (moBufferSize r) v (moCompressType r) (moCompressLevel r) (moCompressLevelNetwork r) (moDelta r) (moHardLink r) (moOnline r) (moProcessMax r).
Definition setMoCompressType (r : moption) (v : ctype) : moption := mkMoption (moArchiveCheck r) (moArchiveCopy r) (moStandby r) (moBufferSize r) (moChecksumPage r) v (moCompressLevel r) (moCompressLevelNetwork r) (moDelta r) (moHardLink r) (moOnline r) (moProcessMax r).
Definition setMoCompressLevel (r : moption) (v : option jvar) : moption := mkMoption (moArchiveCheck r) (moArchiveCopy r) (moStandby r) (moBufferSize r) (moChecksumPage r) (moCompressType r) v (moCompressLevelNetwork r) (moDelta r) (moHardLink r) (moOnline r) (moProcessMax r).
Definition setMoCompressLevelNetwork (r : moption) (v : option jvar) : moption := mkMoption (moArchiveCheck r) (moArchiveCopy r) (moStandby r) (moBufferSize r) (moChecksumPage r) (moCompressType r) (moCompressLevel r) v (moDelta r) (moHardLink r) (moOnline r) (moProcessMax r).
Definition setMoDelta (r : moption) (v : option jvar) : moption := mkMoption (moArchiveCheck r) (moArchiveCopy r) (moStandby r) (moBufferSize r) (moChecksumPage r) (moCompressType r) (moCompressLevel r) (moCompressLevelNetwork r) v (moHardLink r) (moOnline r) (moProcessMax r).
Definition setMoHardLink (r : moption) (v : bool) : moption := mkMoption (moArchiveCheck r) (moArchiveCopy r) (moStandby r) (moBufferSize r) (moChecksumPage r) (moCompressType r) (moCompressLevel r) (moCompressLevelNetwork r) (moDelta r) v (moOnline r) (moProcessMax r).
Definition setMoOnline (r : moption) (v : bool) : moption := mkMoption (moArchiveCheck r) (moArchiveCopy r) (moStandby r) (moBufferSize r) (moChecksumPage r) (moCompressType r) (moCompressLevel r) (moCompressLevelNetwork r) (moDelta r) (moHardLink r) v (moProcessMax r).
Definition setMoProcessMax (r : moption) (v : option jvar) : moption := mkMoption (moArchiveCheck r) (moArchiveCopy r) (moStandby r) (moBufferSize r) (moChecksumPage r) (moCompressType r) (moCompressLevel r) (moCompressLevelNetwork r) (moDelta r) (moHardLink r) (moOnline r) v.
(** manifest.h:127-132, 173-179, 184-190, 195-209: one record each *)
Record mdb := mkMdb { mdName : str; mdId : Z; mdLastSystemId : Z }.

Record mlink := mkMlink { mlName : str; mlDestination : str; mlUser : option str; mlGroup : option str }.

Record mpath := mkMpath { mpName : str; mpMode : Z; mpUser : option str; mpGroup : option str }.

Record mtarget := mkMtarget { mtName : str; mtIsPath : bool; mtPath : str; mtFile : option str; mtTablespaceId : Z; mtTablespaceName : option str }.
(** manifest.h:226-237; the cipher pass is that of the info object *)
Record manifest := mkManifest { mnCipher : option str; mnBackup : mbackup; mnPg : mpg; mnOption : moption; mnAnnotation : option jvar; mnDbs : list mdb; mnTargets : list mtarget; mnLinks : list mlink; mnPaths : list mpath; mnFiles : mfiles }.

(** serialize.c.inc:5-76, manifest.h MANIFEST_TARGET_PGDATA *)
Definition sBackup : str := [98;97;99;107;117;112]. (* backup *)
Definition sBackupDb : str := [98;97;99;107;117;112;58;100;98]. (* backup:db *)
Definition sBackupOption : str := [98;97;99;107;117;112;58;111;112;116;105;111;110]. (* backup:option *)
Definition sBackupTarget : str := [98;97;99;107;117;112;58;116;97;114;103;101;116]. (* backup:target *)
Definition sDb : str := [100;98]. (* db *)
Definition sMetadata : str := [109;101;116;97;100;97;116;97]. (* metadata *)
Definition sTargetFile : str := [116;97;114;103;101;116;58;102;105;108;101]. (* target:file *)
Definition sTargetFileDefault : str := [116;97;114;103;101;116;58;102;105;108;101;58;100;101;102;97;117;108;116]. (* target:file:default *)
Definition sTargetLink : str := [116;97;114;103;101;116;58;108;105;110;107]. (* target:link *)
Definition sTargetLinkDefault : str := [116;97;114;103;101;116;58;108;105;110;107;58;100;101;102;97;117;108;116]. (* target:link:default *)
Definition sTargetPath : str := [116;97;114;103;101;116;58;112;97;116;104]. (* target:path *)
Definition sTargetPathDefault : str := [116;97;114;103;101;116;58;112;97;116;104;58;100;101;102;97;117;108;116]. (* target:path:default *)
Definition kAnnotation : str := [97;110;110;111;116;97;116;105;111;110]. (* annotation *)
Definition kArchiveStart : str := [98;97;99;107;117;112;45;97;114;99;104;105;118;101;45;115;116;97;114;116]. (* backup-archive-start *)
Definition kArchiveStop : str := [98;97;99;107;117;112;45;97;114;99;104;105;118;101;45;115;116;111;112]. (* backup-archive-stop *)
Definition kBlockIncr : str := [98;97;99;107;117;112;45;98;108;111;99;107;45;105;110;99;114]. (* backup-block-incr *)
Definition kBundle : str := [98;97;99;107;117;112;45;98;117;110;100;108;101]. (* backup-bundle *)
Definition kBundleRaw : str := [98;97;99;107;117;112;45;98;117;110;100;108;101;45;114;97;119]. (* backup-bundle-raw *)
Definition kLabel : str := [98;97;99;107;117;112;45;108;97;98;101;108]. (* backup-label *)
Definition kLsnStart : str := [98;97;99;107;117;112;45;108;115;110;45;115;116;97;114;116]. (* backup-lsn-start *)
Definition kLsnStop : str := [98;97;99;107;117;112;45;108;115;110;45;115;116;111;112]. (* backup-lsn-stop *)
Definition kPrior : str := [98;97;99;107;117;112;45;112;114;105;111;114]. (* backup-prior *)
Definition kReferenceList : str := [98;97;99;107;117;112;45;114;101;102;101;114;101;110;99;101]. (* backup-reference *)
Definition kCopyStart : str := [98;97;99;107;117;112;45;116;105;109;101;115;116;97;109;112;45;99;111;112;121;45;115;116;97;114;116]. (* backup-timestamp-copy-start *)
Definition kStart : str := [98;97;99;107;117;112;45;116;105;109;101;115;116;97;109;112;45;115;116;97;114;116]. (* backup-timestamp-start *)
Definition kStop : str := [98;97;99;107;117;112;45;116;105;109;101;115;116;97;109;112;45;115;116;111;112]. (* backup-timestamp-stop *)
Definition kBackupType : str := [98;97;99;107;117;112;45;116;121;112;101]. (* backup-type *)
Definition kBi : str := [98;105]. (* bi *)
Definition kBic : str := [98;105;99]. (* bic *)
Definition kBim : str := [98;105;109]. (* bim *)
Definition kBni : str := [98;110;105]. (* bni *)
Definition kBno : str := [98;110;111]. (* bno *)
Definition kSum : str := [99;104;101;99;107;115;117;109]. (* checksum *)
Definition kRck : str := [114;99;107]. (* rck *)
Definition kSumPage : str := [99;104;101;99;107;115;117;109;45;112;97;103;101]. (* checksum-page *)
Definition kSumPageError : str := [99;104;101;99;107;115;117;109;45;112;97;103;101;45;101;114;114;111;114]. (* checksum-page-error *)
Definition kDbCatalog : str := [100;98;45;99;97;116;97;108;111;103;45;118;101;114;115;105;111;110]. (* db-catalog-version *)
Definition kDbControl : str := [100;98;45;99;111;110;116;114;111;108;45;118;101;114;115;105;111;110]. (* db-control-version *)
Definition kDbId : str := [100;98;45;105;100]. (* db-id *)
Definition kDbLastSystemId : str := [100;98;45;108;97;115;116;45;115;121;115;116;101;109;45;105;100]. (* db-last-system-id *)
Definition kDbSystemId : str := [100;98;45;115;121;115;116;101;109;45;105;100]. (* db-system-id *)
Definition kDbVersion : str := [100;98;45;118;101;114;115;105;111;110]. (* db-version *)
Definition kDestination : str := [100;101;115;116;105;110;97;116;105;111;110]. (* destination *)
Definition kFile : str := [102;105;108;101]. (* file *)
Definition kGroup : str := [103;114;111;117;112]. (* group *)
Definition kMode : str := [109;111;100;101]. (* mode *)
Definition kPath : str := [112;97;116;104]. (* path *)
Definition kReference : str := [114;101;102;101;114;101;110;99;101]. (* reference *)
Definition kSize : str := [115;105;122;101]. (* size *)
Definition kSzo : str := [115;122;111]. (* szo *)
Definition kRepoSize : str := [114;101;112;111;45;115;105;122;101]. (* repo-size *)
Definition kTablespaceId : str := [116;97;98;108;101;115;112;97;99;101;45;105;100]. (* tablespace-id *)
Definition kTablespaceName : str := [116;97;98;108;101;115;112;97;99;101;45;110;97;109;101]. (* tablespace-name *)
Definition kTimestamp : str := [116;105;109;101;115;116;97;109;112]. (* timestamp *)
Definition kType : str := [116;121;112;101]. (* type *)
Definition kUser : str := [117;115;101;114]. (* user *)
Definition kOptArchiveCheck : str := [111;112;116;105;111;110;45;97;114;99;104;105;118;101;45;99;104;101;99;107]. (* option-archive-check *)
Definition kOptArchiveCopy : str := [111;112;116;105;111;110;45;97;114;99;104;105;118;101;45;99;111;112;121]. (* option-archive-copy *)
Definition kOptStandby : str := [111;112;116;105;111;110;45;98;97;99;107;117;112;45;115;116;97;110;100;98;121]. (* option-backup-standby *)
Definition kOptBufferSize : str := [111;112;116;105;111;110;45;98;117;102;102;101;114;45;115;105;122;101]. (* option-buffer-size *)
Definition kOptChecksumPage : str := [111;112;116;105;111;110;45;99;104;101;99;107;115;117;109;45;112;97;103;101]. (* option-checksum-page *)
Definition kOptCompress : str := [111;112;116;105;111;110;45;99;111;109;112;114;101;115;115]. (* option-compress *)
Definition kOptCompressType : str := [111;112;116;105;111;110;45;99;111;109;112;114;101;115;115;45;116;121;112;101]. (* option-compress-type *)
Definition kOptCompressLevel : str := [111;112;116;105;111;110;45;99;111;109;112;114;101;115;115;45;108;101;118;101;108]. (* option-compress-level *)
Definition kOptCompressLevelNetwork : str := [111;112;116;105;111;110;45;99;111;109;112;114;101;115;115;45;108;101;118;101;108;45;110;101;116;119;111;114;107]. (* option-compress-level-network *)
Definition kOptDelta : str := [111;112;116;105;111;110;45;100;101;108;116;97]. (* option-delta *)
Definition kOptHardlink : str := [111;112;116;105;111;110;45;104;97;114;100;108;105;110;107]. (* option-hardlink *)
Definition kOptOnline : str := [111;112;116;105;111;110;45;111;110;108;105;110;101]. (* option-online *)
Definition kOptProcessMax : str := [111;112;116;105;111;110;45;112;114;111;99;101;115;115;45;109;97;120]. (* option-process-max *)
Definition tLink : str := [108;105;110;107]. (* link *)
Definition tPath : str := [112;97;116;104]. (* path *)
Definition pgData : str := [112;103;95;100;97;116;97]. (* pg_data *)
Definition sentinel : str := [64]. (* @ *)
(** manifest.h:31 *)
Definition BLOCK_INCR_CHECKSUM_SIZE_MIN : Z := 6.
(** crypto/hash.h HASH_TYPE_SHA1_ZERO: the SHA-1 of no data *)
Definition sha1Zero : list Z := [218;57;163;238;94;107;75;13;50;85;191;239;149;96;24;144;175;216;7;9].
Definition isNull {A} (o : option A) : bool := match o with None => true | Some _ => false end.

(** * Save *)

(** serialize.c.inc:564-573 *)
Definition manifestOwnerVar (o : option str) : jvar := match o with None => JBool false | Some s => JStr s end.
(** varEq() of such variants *)
Definition ownerVarEq (a b : jvar) : bool :=
  match a, b with JBool x, JBool y => Bool.eqb x y | JStr x, JStr y => strEqb x y | _, _ => false end.
(** serialize.c.inc:554-562 *)
Record msave := mkMsave { svUser : jvar; svGroup : jvar; svFileMode : Z; svPathMode : Z }.

Definition opt {A B} (o : option A) (f : A -> B) : list B := match o with Some a => [f a] | None => [] end.
Definition when {A} (b : bool) (l : list A) : list A := if b then l else [].
Fixpoint mapR {A B} (f : A -> res B) (l : list A) : res (list B) :=
  match l with [] => Ok [] | a :: r => let* b := f a in let* t := mapR f r in Ok (b :: t) end.
(** infoSaveValue(section, key, jsonFromVar(value)); VARSTR(NULL) is written as null *)
Definition saveVars (l : list (str * jvar)) : res (list (str * str)) := mapR (fun p => let* s := jsonFromVar (snd p) in Ok (fst p, s)) l.
Definition varStrOpt (o : option str) : jvar := match o with Some s => JStr s | None => JNull end.

(** jsonWriteObjectBegin(jsonWriteNewP()), jsonWriteKey() and a value for each of [l], jsonWriteObjectEnd().  The typed functions jsonWriteStr(),
    jsonWriteUInt64(), jsonWriteBool() are what jsonWriteVar() does for these types; jsonWriteJson() is json.c:1537-1556. *)
Inductive wval := WVar (v : jvar) | WJson (s : str).
Definition writeField (w : jwrite) (p : str * wval) : res jwrite :=
  let* w := jsonWriteKey w (fst p) in
  match snd p with
  | WVar v => jsonWriteVarRecurse w v
  | WJson s => let* w := jsonWritePush w TString None in Ok (wcat w s)
  end.
Fixpoint writeFields (w : jwrite) (l : list (str * wval)) : res jwrite :=
  match l with [] => Ok w | p :: r => let* w := writeField w p in writeFields w r end.
Definition jsonObject (l : list (str * wval)) : res str :=
  let* w := jsonWriteBegin jsonWriteNew true in
  let* w := writeFields w l in
  Ok (wtext (jsonWriteEnd w true)).

(** stringList.c:323-349 strLstJoin(list, ",") *)
Fixpoint strJoin (l : list str) : str := match l with [] => [] | [s] => s | s :: r => s ++ 44 :: strJoin r end.

(** serialize.c.inc:592-668 *)
Definition saveBackup (b : mbackup) (references : list str) : list (str * jvar) :=
  opt (mbArchiveStart b) (fun s => (kArchiveStart, JStr s)) ++
  opt (mbArchiveStop b) (fun s => (kArchiveStop, JStr s)) ++
  when (mbBlockIncr b) [(kBlockIncr, JBool (mbBlockIncr b))] ++
  when (mbBundle b) [(kBundle, JBool (mbBundle b))] ++
  when (mbBundleRaw b) [(kBundleRaw, JBool (mbBundleRaw b))] ++
  [(kLabel, varStrOpt (mbLabel b))] ++
  opt (mbLsnStart b) (fun s => (kLsnStart, JStr s)) ++
  opt (mbLsnStop b) (fun s => (kLsnStop, JStr s)) ++
  opt (mbPrior b) (fun s => (kPrior, JStr s)) ++
  [(kReferenceList, JStr (strJoin references)); (kCopyStart, JInt (mbCopyStart b)); (kStart, JInt (mbStart b)); (kStop, JInt (mbStop b));
   (kBackupType, JStr (mbType b))].
(** serialize.c.inc:670-686; [control] is pgControlVersion() *)
Definition savePg (control : Z -> Z) (g : mpg) : list (str * jvar) :=
  [(kDbCatalog, JUInt (mgCatalog g)); (kDbControl, JUInt (control (mgVersion g))); (kDbId, JUInt (mgId g)); (kDbSystemId, JUInt (mgSystemId g));
   (kDbVersion, JStr (pgVersionToStr (mgVersion g)))].
(** serialize.c.inc:688-764 *)
Definition saveOption (o : moption) : list (str * jvar) :=
  [(kOptArchiveCheck, JBool (moArchiveCheck o)); (kOptArchiveCopy, JBool (moArchiveCopy o))] ++
  opt (moStandby o) (fun v => (kOptStandby, v)) ++
  opt (moBufferSize o) (fun v => (kOptBufferSize, v)) ++
  opt (moChecksumPage o) (fun v => (kOptChecksumPage, v)) ++
  [(kOptCompress, JBool (match moCompressType o with CNone => false | _ => true end))] ++
  opt (moCompressLevel o) (fun v => (kOptCompressLevel, v)) ++
  opt (moCompressLevelNetwork o) (fun v => (kOptCompressLevelNetwork, v)) ++
  [(kOptCompressType, JStr (compressTypeStr (moCompressType o)))] ++
  opt (moDelta o) (fun v => (kOptDelta, v)) ++
  [(kOptHardlink, JBool (moHardLink o)); (kOptOnline, JBool (moOnline o))] ++
  opt (moProcessMax o) (fun v => (kOptProcessMax, v)).
(** serialize.c.inc:766-798 *)
Definition targetFields (t : mtarget) : list (str * wval) :=
  opt (mtFile t) (fun s => (kFile, WVar (JStr s))) ++
  [(kPath, WVar (JStr (mtPath t)))] ++
  when (negb (mtTablespaceId t =? 0)) [(kTablespaceId, WVar (JStr (cvtUIntToZ (mtTablespaceId t))))] ++
  opt (mtTablespaceName t) (fun s => (kTablespaceName, WVar (JStr s))) ++
  [(kType, WVar (JStr (if mtIsPath t then tPath else tLink)))].
(** serialize.c.inc:800-819 *)
Definition dbFields (d : mdb) : list (str * wval) :=
  [(kDbId, WVar (JUInt (mdId d))); (kDbLastSystemId, WVar (JUInt (mdLastSystemId d)))].
(** serialize.c.inc:832-918: (uint64_t) of a time is modulo 2^64 *)
Definition fileFields (sv : msave) (f : mfile) : list (str * wval) :=
  when (negb (mfBlockSize f =? 0))
    ([(kBi, WVar (JUInt (mfBlockSize f / BLOCK_INCR_SIZE_FACTOR)))] ++
     when (negb (mfBlockChecksumSize f =? BLOCK_INCR_CHECKSUM_SIZE_MIN)) [(kBic, WVar (JUInt (mfBlockChecksumSize f)))] ++
     when (negb (mfBlockMapSize f =? 0)) [(kBim, WVar (JUInt (mfBlockMapSize f)))]) ++
  when (negb (mfBundleId f =? 0))
    ([(kBni, WVar (JUInt (mfBundleId f)))] ++
     when (negb (mfBundleOffset f =? 0)) [(kBno, WVar (JUInt (mfBundleOffset f)))]) ++
  when (negb (mfSize f =? 0)) (opt (mfSha1 f) (fun s => (kSum, WVar (JStr (encodeHex s))))) ++
  when (mfChecksumPage f)
    ([(kSumPage, WVar (JBool (negb (mfChecksumPageError f))))] ++ opt (mfErrorList f) (fun s => (kSumPageError, WJson s))) ++
  when (negb (ownerVarEq (manifestOwnerVar (mfGroup f)) (svGroup sv))) [(kGroup, WVar (manifestOwnerVar (mfGroup f)))] ++
  when (negb (mfMode f =? svFileMode sv)) [(kMode, WVar (JStr (cvtModeToZ (mfMode f))))] ++
  opt (mfRepoSha1 f) (fun s => (kRck, WVar (JStr (encodeHex s)))) ++
  opt (mfReference f) (fun s => (kReference, WVar (JStr s))) ++
  when (negb (mfSizeRepo f =? mfSize f)) [(kRepoSize, WVar (JUInt (mfSizeRepo f)))] ++
  [(kSize, WVar (JUInt (mfSize f)))] ++
  when (negb (mfSizeOriginal f =? mfSize f)) [(kSzo, WVar (JUInt (mfSizeOriginal f)))] ++
  [(kTimestamp, WVar (JUInt (mfTimestamp f mod two64)))] ++
  when (negb (ownerVarEq (manifestOwnerVar (mfUser f)) (svUser sv))) [(kUser, WVar (manifestOwnerVar (mfUser f)))].
(** serialize.c.inc:930-955 *)
Definition linkFields (sv : msave) (l : mlink) : list (str * wval) :=
  [(kDestination, WVar (JStr (mlDestination l)))] ++
  when (negb (ownerVarEq (manifestOwnerVar (mlGroup l)) (svGroup sv))) [(kGroup, WVar (manifestOwnerVar (mlGroup l)))] ++
  when (negb (ownerVarEq (manifestOwnerVar (mlUser l)) (svUser sv))) [(kUser, WVar (manifestOwnerVar (mlUser l)))].
(** serialize.c.inc:969-995 *)
Definition pathFields (sv : msave) (p : mpath) : list (str * wval) :=
  when (negb (ownerVarEq (manifestOwnerVar (mpGroup p)) (svGroup sv))) [(kGroup, WVar (manifestOwnerVar (mpGroup p)))] ++
  when (negb (mpMode p =? svPathMode sv)) [(kMode, WVar (JStr (cvtModeToZ (mpMode p))))] ++
  when (negb (ownerVarEq (manifestOwnerVar (mpUser p)) (svUser sv))) [(kUser, WVar (manifestOwnerVar (mpUser p)))].
Definition saveObjects {A} (name : A -> str) (fields : A -> list (str * wval)) (l : list A) : res (list (str * str)) :=
  mapR (fun a => let* s := jsonObject (fields a) in Ok (name a, s)) l.

(** serialize.c.inc:575-1010 manifestSaveCallback as the data of InfoModel.infoSaveCallback *)
Definition manifestSaveData (control : Z -> Z) (sv : msave) (m : manifest) (files : list mfile) : res (list (str * list (str * str))) :=
  let* backup := saveVars (saveBackup (mnBackup m) (mxReferences (msCtx (mnFiles m)))) in
  let* pg := saveVars (savePg control (mnPg m)) in
  let* option := saveVars (saveOption (mnOption m)) in
  let* targets := saveObjects mtName targetFields (mnTargets m) in
  let* dbs := saveObjects mdName dbFields (mnDbs m) in
  let* metadata := saveVars (opt (mnAnnotation m) (fun v => (kAnnotation, v))) in
  let* files := saveObjects mfName (fileFields sv) files in
  let* fileDefault := saveVars [(kGroup, svGroup sv); (kMode, JStr (cvtModeToZ (svFileMode sv))); (kUser, svUser sv)] in
  let* links := saveObjects mlName (linkFields sv) (mnLinks m) in
  let* linkDefault := saveVars (when (0 <? length (mnLinks m))%nat [(kGroup, svGroup sv); (kUser, svUser sv)]) in
  let* paths := saveObjects mpName (pathFields sv) (mnPaths m) in
  let* pathDefault := saveVars [(kGroup, svGroup sv); (kMode, JStr (cvtModeToZ (svPathMode sv))); (kUser, svUser sv)] in
  Ok [(sBackup, backup); (sBackupDb, pg); (sBackupOption, option); (sBackupTarget, targets); (sDb, dbs); (sMetadata, metadata);
      (sTargetFile, files); (sTargetFileDefault, fileDefault); (sTargetLink, links); (sTargetLinkDefault, linkDefault);
      (sTargetPath, paths); (sTargetPathDefault, pathDefault)].

(** The name in a pack, by which lstComparatorStr() compares *)
Definition packName (p : list Z) : str := match readStrPub p with Ok (n, _) => n | _ => [] end.
Definition sortPacks (s : mfiles) : mfiles := mkMfiles (msCtx s) (msBase s) (sortBy packName strLeb (msPacks s)).
(** serialize.c.inc:1092-1130; 416 is S_IRUSR | S_IWUSR | S_IRGRP; store.c.inc:652-669 for the path *)
Definition manifestSave (sha : str -> str) (version : str) (control : Z -> Z) (m : manifest) : res str :=
  let files := sortPacks (mnFiles m) in
  match find (fun p => strEqb (mpName p) pgData) (mnPaths m) with
  | None => Err EAssert
  | Some base =>
      let sv := mkMsave (manifestOwnerVar (mpUser base)) (manifestOwnerVar (mpGroup base)) (Z.land (mpMode base) 416) (mpMode base) in
      let* l := mapR (manifestFileUnpack (msCtx files) (msBase files)) (msPacks files) in
      let* data := manifestSaveData control sv m l in
      Ok (infoSave sha version (mnCipher m) data)
  end.

(** * Load *)

(** serialize.c.inc:78-102; what was found is kept with the link or path *)
Record mload := mkMload {
  ldBackup : mbackup; ldPg : mpg; ldOption : moption; ldAnnotation : option jvar; ldDbs : list mdb; ldTargets : list mtarget;
  ldLinks : list (mlink * (bool * bool)); ldPaths : list (mpath * (bool * bool * bool)); ldFiles : mfiles; ldReferenceFound : bool;
  ldLinkGroup : option jvar; ldLinkUser : option jvar; ldPathGroup : option jvar; ldPathMode : Z; ldPathUser : option jvar }.
Definition setLdBackup (r : mload) (v : mbackup) : mload := mkMload v (ldPg r) (ldOption r) (ldAnnotation r) (ldDbs r) (ldTargets r) (ldLinks r) (ldPaths r) (ldFiles r) (ldReferenceFound r) (ldLinkGroup r) (ldLinkUser r) (ldPathGroup r) (ldPathMode r) (ldPathUser r).
Definition setLdPg (r : mload) (v : mpg) : mload := mkMload (ldBackup r) v (ldOption r) (ldAnnotation r) (ldDbs r) (ldTargets r) (ldLinks r) (ldPaths r) (ldFiles r) (ldReferenceFound r) (ldLinkGroup r) (ldLinkUser r) (ldPathGroup r) (ldPathMode r) (ldPathUser r).
Definition setLdOption (r : mload) (v : moption) : mload := mkMload (ldBackup r) (ldPg r) v (ldAnnotation r) (ldDbs r) (ldTargets r) (ldLinks r) (ldPaths r) (ldFiles r) (ldReferenceFound r) (ldLinkGroup r) (ldLinkUser r) (ldPathGroup r) (ldPathMode r) (ldPathUser r).
Definition setLdAnnotation (r : mload) (v : option jvar) : mload := mkMload (ldBackup r) (ldPg r) (ldOption r) v (ldDbs r) (ldTargets r) (ldLinks r) (ldPaths r) (ldFiles r) (ldReferenceFound r) (ldLinkGroup r) (ldLinkUser r) (ldPathGroup r) (ldPathMode r) (ldPathUser r).
Definition setLdDbs (r : mload) (v : list mdb) : mload := mkMload (ldBackup r) (ldPg r) (ldOption r) (ldAnnotation r) v (ldTargets r) (ldLinks r) (ldPaths r) (ldFiles r) (ldReferenceFound r) (ldLinkGroup r) (ldLinkUser r) (ldPathGroup r) (ldPathMode r) (ldPathUser r).
Definition setLdTargets (r : mload) (v : list mtarget) : mload := mkMload (ldBackup r) (ldPg r) (ldOption r) (ldAnnotation r) (ldDbs r) v (ldLinks r) (ldPaths r) (ldFiles r) (ldReferenceFound r) (ldLinkGroup r) (ldLinkUser r) (ldPathGroup r) (ldPathMode r) (ldPathUser r).
Definition setLdLinks (r : mload) (v : list (mlink * (bool * bool))) : mload := mkMload (ldBackup r) (ldPg r) (ldOption r) (ldAnnotation r) (ldDbs r) (ldTargets r) v (ldPaths r) (ldFiles r) (ldReferenceFound r) (ldLinkGroup r) (ldLinkUser r) (ldPathGroup r) (ldPathMode r) (ldPathUser r).
Definition setLdPaths (r : mload) (v : list (mpath * (bool * bool * bool))) : mload := mkMload (ldBackup r) (ldPg r) (ldOption r) (ldAnnotation r) (ldDbs r) (ldTargets r) (ldLinks r) v (ldFiles r) (ldReferenceFound r) (ldLinkGroup r) (ldLinkUser r) (ldPathGroup r) (ldPathMode r) (ldPathUser r).
Definition setLdFiles (r : mload) (v : mfiles) : mload := mkMload (ldBackup r) (ldPg r) (ldOption r) (ldAnnotation r) (ldDbs r) (ldTargets r) (ldLinks r) (ldPaths r) v (ldReferenceFound r) (ldLinkGroup r) (ldLinkUser r) (ldPathGroup r) (ldPathMode r) (ldPathUser r).
Definition setLdReferenceFound (r : mload) (v : bool) : mload := mkMload (ldBackup r) (ldPg r) (ldOption r) (ldAnnotation r) (ldDbs r) (ldTargets r) (ldLinks r) (ldPaths r) (ldFiles r) v (ldLinkGroup r) (ldLinkUser r) (ldPathGroup r) (ldPathMode r) (ldPathUser r).
Definition setLdLinkGroup (r : mload) (v : option jvar) : mload := mkMload (ldBackup r) (ldPg r) (ldOption r) (ldAnnotation r) (ldDbs r) (ldTargets r) (ldLinks r) (ldPaths r) (ldFiles r) (ldReferenceFound r) v (ldLinkUser r) (ldPathGroup r) (ldPathMode r) (ldPathUser r).
Definition setLdLinkUser (r : mload) (v : option jvar) : mload := mkMload (ldBackup r) (ldPg r) (ldOption r) (ldAnnotation r) (ldDbs r) (ldTargets r) (ldLinks r) (ldPaths r) (ldFiles r) (ldReferenceFound r) (ldLinkGroup r) v (ldPathGroup r) (ldPathMode r) (ldPathUser r).
Definition setLdPathGroup (r : mload) (v : option jvar) : mload := mkMload (ldBackup r) (ldPg r) (ldOption r) (ldAnnotation r) (ldDbs r) (ldTargets r) (ldLinks r) (ldPaths r) (ldFiles r) (ldReferenceFound r) (ldLinkGroup r) (ldLinkUser r) v (ldPathMode r) (ldPathUser r).
Definition setLdPathMode (r : mload) (v : Z) : mload := mkMload (ldBackup r) (ldPg r) (ldOption r) (ldAnnotation r) (ldDbs r) (ldTargets r) (ldLinks r) (ldPaths r) (ldFiles r) (ldReferenceFound r) (ldLinkGroup r) (ldLinkUser r) (ldPathGroup r) v (ldPathUser r).
Definition setLdPathUser (r : mload) (v : option jvar) : mload := mkMload (ldBackup r) (ldPg r) (ldOption r) (ldAnnotation r) (ldDbs r) (ldTargets r) (ldLinks r) (ldPaths r) (ldFiles r) (ldReferenceFound r) (ldLinkGroup r) (ldLinkUser r) (ldPathGroup r) (ldPathMode r) v.
(** manifest.c:44-71, 683-705: nothing known; [base] is the base time of ManifestPackModel.v.  (mode_t)-1 is 2^32 - 1. *)
Definition loadInit (base : Z) : mload :=
  mkMload (mkMbackup None None 0 0 0 [] false false false None None None None) (mkMpg 0 0 0 0)
    (mkMoption false false None None None CNone None None None false false None) None [] [] [] []
    (mkMfiles (mkMctx [] [] (Some sentinel) (Some sentinel) (two32 - 1)) base []) false None None None 0 None.

(** serialize.c.inc:103-144: varStr() of another type is undefined *)
Definition manifestOwnerGet (v : jvar) : res (option str) :=
  match v with JBool true => Err EFormat | JBool false => Ok None | JStr s => Ok (Some s) | _ => UB end.
Definition manifestOwnerDefaultGet (v : jvar) : res jvar :=
  match v with JBool true => Err EFormat | JNull => UB | v => Ok v end.

(** if (jsonReadKeyExpect()) read *)
Definition expectKey {A} (st : jread) (key : str) (rd : jread -> res (A * jread)) : res (option A * jread) :=
  let* (found, st) := jsonReadKeyExpect st key in
  if found : bool then let* (a, st) := rd st in Ok (Some a, st) else Ok (None, st).
Definition requireKey {A} (st : jread) (key : str) (rd : jread -> res (A * jread)) : res (A * jread) :=
  let* st := jsonReadKeyRequire st key in rd st.
(** jsonReadStr() where NULL is not handled *)
Definition readString (st : jread) : res (str * jread) :=
  let* (s, st) := jsonReadStr st in match s with Some s => Ok (s, st) | None => UB end.
(** cvtZToMode(strZ(jsonReadStr())), cvtZToUInt(strZ(jsonReadStr())), manifestOwnerGet(jsonReadVar()) *)
Definition readMode (st : jread) : res (Z * jread) := let* (s, st) := readString st in let* m := cvtZToMode s in Ok (m, st).
Definition readUIntStr (st : jread) : res (Z * jread) := let* (s, st) := readString st in let* m := cvtZToUInt 10 s in Ok (m, st).
Definition readOwner (st : jread) : res (option str * jread) := let* (v, st) := jsonReadVar st in let* o := manifestOwnerGet v in Ok (o, st).
(** bufPtr(bufNewDecode(encodingHex, jsonReadStr())), of which 20 bytes will be used *)
Definition readSha1 (sc : bool) (st : jread) : res (list Z * jread) :=
  let* (s, st) := readString st in
  let* b := decodeHex sc s in
  if (length b <? HASH_TYPE_SHA1_SIZE)%nat then UB else Ok (firstn HASH_TYPE_SHA1_SIZE b, st).
(** jsonFromVar(jsonReadVar()) *)
Definition readJson (st : jread) : res (str * jread) := let* (v, st) := jsonReadVar st in let* s := jsonFromVar v in Ok (s, st).
Definition orElse {A} (o : option A) (d : A) : A := match o with Some a => a | None => d end.

(** serialize.c.inc:167-280; the size_t product is modulo 2^64 *)
Definition loadFile (sc : bool) (ld : mload) (key value : str) : res mload :=
  let x := msCtx (ldFiles ld) in
  let* st := jsonReadObjectBegin (jsonReadNew value) in
  let* (bi, st) := expectKey st kBi jsonReadUInt64 in
  let* (bic, bim, st) :=
    if isSome bi then
      let* (bic, st) := expectKey st kBic jsonReadUInt64 in
      let* (bim, st) := expectKey st kBim jsonReadUInt64 in
      Ok (orElse bic BLOCK_INCR_CHECKSUM_SIZE_MIN, orElse bim 0, st)
    else Ok (0, 0, st) in
  let* (bni, st) := expectKey st kBni jsonReadUInt64 in
  let* (bno, st) := if isSome bni then expectKey st kBno jsonReadUInt64 else Ok (None, st) in
  let* (sum, st) := expectKey st kSum (readSha1 sc) in
  let* (page, st) := expectKey st kSumPage jsonReadBool in
  let* (pageError, st) := if isSome page then expectKey st kSumPageError readJson else Ok (None, st) in
  let* (group, st) := expectKey st kGroup readOwner in
  let* (mode, st) := expectKey st kMode readMode in
  let* (rck, st) := expectKey st kRck (readSha1 sc) in
  let* (reference, st) := expectKey st kReference readString in
  let* (sizeRepo, st) := expectKey st kRepoSize jsonReadUInt64 in
  let* (size, st) := expectKey st kSize jsonReadUInt64 in
  let* size := match size with Some s => Ok s | None => Err EFormat end in
  let* (szo, st) := expectKey st kSzo jsonReadUInt64 in
  let* (timestamp, st) := expectKey st kTimestamp jsonReadInt64 in
  let* timestamp := match timestamp with Some t => Ok t | None => Err EFormat end in
  let* (user, st) := expectKey st kUser readOwner in
  let x := match reference with
           | Some r => if ldReferenceFound ld then x else mkMctx (strLstAddIfMissing (mxReferences x) r) (mxOwners x) (mxUser x) (mxGroup x) (mxMode x)
           | None => x
           end in
  let file :=
    mkMfile key false false false (isSome page) (match page with Some b => negb b | None => false end) (orElse mode (mxMode x))
      (if size =? 0 then Some sha1Zero else sum) rck pageError (orElse user (mxUser x)) (orElse group (mxGroup x)) reference
      (orElse bni 0) (orElse bno 0) (orElse bi 0 * BLOCK_INCR_SIZE_FACTOR mod two64) bic bim size (orElse szo size) (orElse sizeRepo size) timestamp in
  let* files := manifestFileAdd (mkMfiles x (msBase (ldFiles ld)) (msPacks (ldFiles ld))) file in
  Ok (setLdFiles ld files).

(** store.c.inc:20-33: the owners of links and paths are cached as well *)
Definition cacheOwner (ld : mload) (o : option str) : mload :=
  setLdFiles ld (mkMfiles (ownerCache (msCtx (ldFiles ld)) o) (msBase (ldFiles ld)) (msPacks (ldFiles ld))).
(** serialize.c.inc:282-309, store.c.inc:623-650 *)
Definition loadPath (ld : mload) (key value : str) : res mload :=
  let* st := jsonReadObjectBegin (jsonReadNew value) in
  let* (group, st) := expectKey st kGroup readOwner in
  let* (mode, st) := expectKey st kMode readMode in
  let* (user, st) := expectKey st kUser readOwner in
  let ld := cacheOwner (cacheOwner ld (orElse group None)) (orElse user None) in
  Ok (setLdPaths ld (ldPaths ld ++ [(mkMpath key (orElse mode 0) (orElse user None) (orElse group None), (isSome group, isSome mode, isSome user))])).
(** serialize.c.inc:311-337, store.c.inc:529-557 *)
Definition loadLink (ld : mload) (key value : str) : res mload :=
  let* st := jsonReadObjectBegin (jsonReadNew value) in
  let* (destination, st) := requireKey st kDestination readString in
  let* (group, st) := expectKey st kGroup readOwner in
  let* (user, st) := expectKey st kUser readOwner in
  let ld := cacheOwner (cacheOwner ld (orElse group None)) (orElse user None) in
  Ok (setLdLinks ld (ldLinks ld ++ [(mkMlink key destination (orElse user None) (orElse group None), (isSome group, isSome user))])).
(** serialize.c.inc:339-356, and a change of the defaults of files *)
Definition setDefaults (ld : mload) (user group : option str) (mode : Z) : mload :=
  let s := ldFiles ld in setLdFiles ld (mkMfiles (mkMctx (mxReferences (msCtx s)) (mxOwners (msCtx s)) user group mode) (msBase s) (msPacks s)).
Definition loadFileDefault (ld : mload) (key value : str) : res mload :=
  let x := msCtx (ldFiles ld) in
  if strEqb key kMode then let* (m, _) := readMode (jsonReadNew value) in Ok (setDefaults ld (mxUser x) (mxGroup x) m)
  else
    let* (v, _) := jsonReadVar (jsonReadNew value) in
    if strEqb key kGroup then let* o := manifestOwnerGet v in Ok (setDefaults ld (mxUser x) o (mxMode x))
    else if strEqb key kUser then let* o := manifestOwnerGet v in Ok (setDefaults ld o (mxGroup x) (mxMode x))
    else Ok ld.
(** serialize.c.inc:358-375 *)
Definition loadPathDefault (ld : mload) (key value : str) : res mload :=
  if strEqb key kMode then let* (m, _) := readMode (jsonReadNew value) in Ok (setLdPathMode ld m)
  else
    let* (v, _) := jsonReadVar (jsonReadNew value) in
    if strEqb key kGroup then let* d := manifestOwnerDefaultGet v in Ok (setLdPathGroup ld (Some d))
    else if strEqb key kUser then let* d := manifestOwnerDefaultGet v in Ok (setLdPathUser ld (Some d))
    else Ok ld.
(** serialize.c.inc:377-389 *)
Definition loadLinkDefault (ld : mload) (key value : str) : res mload :=
  let* (v, _) := jsonReadVar (jsonReadNew value) in
  if strEqb key kGroup then let* d := manifestOwnerDefaultGet v in Ok (setLdLinkGroup ld (Some d))
  else if strEqb key kUser then let* d := manifestOwnerDefaultGet v in Ok (setLdLinkUser ld (Some d))
  else Ok ld.
(** serialize.c.inc:391-418, store.c.inc:674-704 *)
Definition loadTarget (ld : mload) (key value : str) : res mload :=
  let* st := jsonReadObjectBegin (jsonReadNew value) in
  let* (file, st) := expectKey st kFile jsonReadStr in
  let* (path, st) := requireKey st kPath readString in
  let* (id, st) := expectKey st kTablespaceId readUIntStr in
  let* (name, st) := if isSome id then requireKey st kTablespaceName jsonReadStr else Ok (None, st) in
  let* (type, st) := requireKey st kType readString in
  Ok (setLdTargets ld (ldTargets ld ++ [mkMtarget key (strEqb type tPath) path (orElse file None) (orElse id 0) name])).
(** serialize.c.inc:420-433, store.c.inc:38-64 *)
Definition loadDb (ld : mload) (key value : str) : res mload :=
  let* st := jsonReadObjectBegin (jsonReadNew value) in
  let* (id, st) := requireKey st kDbId jsonReadUInt in
  let* (last, st) := requireKey st kDbLastSystemId jsonReadUInt in
  Ok (setLdDbs ld (ldDbs ld ++ [mkMdb key id last])).
(** serialize.c.inc:435-443; null is a NULL variant *)
Definition loadMetadata (ld : mload) (key value : str) : res mload :=
  if strEqb key kAnnotation then
    let* (v, _) := jsonReadVar (jsonReadNew value) in Ok (setLdAnnotation ld (match v with JNull => None | v => Some v end))
  else Ok ld.
(** stringList.c:34-76 strLstNewSplitZ(string, ",") *)
Fixpoint strSplit (s : str) : list str :=
  match s with
  | [] => [[]]
  | c :: r => if c =? 44 then [] :: strSplit r else match strSplit r with x :: t => (c :: x) :: t | [] => [[c]] end
  end.
(** (time_t) of an uint64_t *)
Definition toTime (v : Z) : Z := if v <? two63 then v else v - two64.
Definition setReferences (ld : mload) (l : list str) : mload :=
  let s := ldFiles ld in
  setLdFiles ld (mkMfiles (mkMctx l (mxOwners (msCtx s)) (mxUser (msCtx s)) (mxGroup (msCtx s)) (mxMode (msCtx s))) (msBase s) (msPacks s)).
(** serialize.c.inc:445-494 *)
Definition loadBackup (ld : mload) (key value : str) : res mload :=
  let b := ldBackup ld in
  let json := jsonReadNew value in
  let bool set := let* (v, _) := jsonReadBool json in Ok (setLdBackup ld (set b v)) in
  let time set := let* (v, _) := jsonReadUInt64 json in Ok (setLdBackup ld (set b (toTime v))) in
  if strEqb key kBlockIncr then bool setMbBlockIncr
  else if strEqb key kBundle then bool setMbBundle
  else if strEqb key kBundleRaw then bool setMbBundleRaw
  else if strEqb key kCopyStart then time setMbCopyStart
  else if strEqb key kStart then time setMbStart
  else if strEqb key kStop then time setMbStop
  else if strEqb key kBackupType then let* (v, _) := readString json in Ok (setLdBackup ld (setMbType b v))
  else
    let* (v, _) := jsonReadStr json in
    if strEqb key kArchiveStart then Ok (setLdBackup ld (setMbArchiveStart b v))
    else if strEqb key kArchiveStop then Ok (setLdBackup ld (setMbArchiveStop b v))
    else if strEqb key kLabel then Ok (setLdBackup ld (setMbLabel b v))
    else if strEqb key kLsnStart then Ok (setLdBackup ld (setMbLsnStart b v))
    else if strEqb key kLsnStop then Ok (setLdBackup ld (setMbLsnStop b v))
    else if strEqb key kPrior then Ok (setLdBackup ld (setMbPrior b v))
    else if strEqb key kReferenceList then
      match v with Some s => Ok (setLdReferenceFound (setReferences ld (strSplit s)) true) | None => UB end
    else Ok ld.
(** serialize.c.inc:496-507 *)
Definition loadPg (ld : mload) (key value : str) : res mload :=
  let g := ldPg ld in
  let json := jsonReadNew value in
  if strEqb key kDbId then let* (v, _) := jsonReadUInt json in Ok (setLdPg ld (setMgId g v))
  else if strEqb key kDbSystemId then let* (v, _) := jsonReadUInt64 json in Ok (setLdPg ld (setMgSystemId g v))
  else if strEqb key kDbCatalog then let* (v, _) := jsonReadUInt json in Ok (setLdPg ld (setMgCatalog g v))
  else if strEqb key kDbVersion then let* (v, _) := readString json in let* n := pgVersionFromStr v in Ok (setLdPg ld (setMgVersion g n))
  else Ok ld.
(** serialize.c.inc:508-548 *)
Definition loadOption (ld : mload) (key value : str) : res mload :=
  let o := ldOption ld in
  let json := jsonReadNew value in
  let bool set := let* (v, _) := jsonReadBool json in Ok (setLdOption ld (set o v)) in
  let uint set := let* (v, _) := jsonReadUInt json in Ok (setLdOption ld (set o (Some (JUInt v)))) in
  let var set := let* (v, _) := jsonReadVar json in Ok (setLdOption ld (set o (match v with JNull => None | v => Some v end))) in
  if strEqb key kOptArchiveCheck then bool setMoArchiveCheck
  else if strEqb key kOptArchiveCopy then bool setMoArchiveCopy
  else if strEqb key kOptCompress then bool (fun o v => setMoCompressType o (if v : Datatypes.bool then CGz else CNone))
  else if strEqb key kOptCompressType then let* (v, _) := readString json in let* t := compressTypeEnum v in Ok (setLdOption ld (setMoCompressType o t))
  else if strEqb key kOptHardlink then bool setMoHardLink
  else if strEqb key kOptOnline then bool setMoOnline
  else if strEqb key kOptBufferSize then uint setMoBufferSize
  else if strEqb key kOptCompressLevel then uint setMoCompressLevel
  else if strEqb key kOptCompressLevelNetwork then uint setMoCompressLevelNetwork
  else if strEqb key kOptProcessMax then uint setMoProcessMax
  else if strEqb key kOptStandby then let* (v, _) := jsonReadBool json in Ok (setLdOption ld (setMoStandby o (Some (JBool v))))
  else if strEqb key kOptChecksumPage then var setMoChecksumPage
  else if strEqb key kOptDelta then var setMoDelta
  else Ok ld.

(** serialize.c.inc:146-551 *)
Definition loadCallback (sc : bool) (ld : mload) (section key value : str) : res mload :=
  if strEqb section sTargetFile then loadFile sc ld key value
  else if strEqb section sTargetPath then loadPath ld key value
  else if strEqb section sTargetLink then loadLink ld key value
  else if strEqb section sTargetFileDefault then loadFileDefault ld key value
  else if strEqb section sTargetPathDefault then loadPathDefault ld key value
  else if strEqb section sTargetLinkDefault then loadLinkDefault ld key value
  else if strEqb section sBackupTarget then loadTarget ld key value
  else if strEqb section sDb then loadDb ld key value
  else if strEqb section sMetadata then loadMetadata ld key value
  else if strEqb section sBackup then loadBackup ld key value
  else if strEqb section sBackupDb then loadPg ld key value
  else if strEqb section sBackupOption then loadOption ld key value
  else Ok ld.

(** manifest.c:717-745: the defaults of links and paths, with the owners cached *)
Definition defaultOwner (d : option jvar) : res (option str) := match d with Some v => manifestOwnerGet v | None => UB end.
Fixpoint linkDefaults (group user : option jvar) (x : mctx) (l : list (mlink * (bool * bool))) : res (list mlink * mctx) :=
  match l with
  | [] => Ok ([], x)
  | (k, (fg, fu)) :: r =>
      let* (g, x) := if fg : bool then Ok (mlGroup k, x) else let* o := defaultOwner group in Ok (o, ownerCache x o) in
      let* (u, x) := if fu : bool then Ok (mlUser k, x) else let* o := defaultOwner user in Ok (o, ownerCache x o) in
      let* (t, x) := linkDefaults group user x r in
      Ok (mkMlink (mlName k) (mlDestination k) u g :: t, x)
  end.
Fixpoint pathDefaults (group user : option jvar) (mode : Z) (x : mctx) (l : list (mpath * (bool * bool * bool))) : res (list mpath * mctx) :=
  match l with
  | [] => Ok ([], x)
  | (k, (fg, fm, fu)) :: r =>
      let* (g, x) := if fg : bool then Ok (mpGroup k, x) else let* o := defaultOwner group in Ok (o, ownerCache x o) in
      let m := if fm : bool then mpMode k else mode in
      let* (u, x) := if fu : bool then Ok (mpUser k, x) else let* o := defaultOwner user in Ok (o, ownerCache x o) in
      let* (t, x) := pathDefaults group user mode x r in
      Ok (mkMpath (mpName k) m u g :: t, x)
  end.
(** manifest.c:671-765; store.c.inc:706-723 for the target *)
Definition manifestNewLoad (sha : str -> str) (bufSize : nat) (sc : bool) (base : Z) (text : str) : res manifest :=
  let* (_, cipher, ld) := infoNewLoad mload (loadCallback sc) sha bufSize text (loadInit base) in
  let s := ldFiles ld in
  let x := msCtx s in
  let* x :=
    if ldReferenceFound ld then Ok x
    else match mbLabel (ldBackup ld) with
         | Some r => Ok (mkMctx (strLstAddIfMissing (mxReferences x) r) (mxOwners x) (mxUser x) (mxGroup x) (mxMode x))
         | None => UB
         end in
  let* (links, x) := linkDefaults (ldLinkGroup ld) (ldLinkUser ld) x (ldLinks ld) in
  let* (paths, x) := pathDefaults (ldPathGroup ld) (ldPathUser ld) (ldPathMode ld) x (ldPaths ld) in
  let targets := sortBy mtName strLeb (ldTargets ld) in
  match find (fun t => strEqb (mtName t) pgData) targets with
  | None => Err EAssert
  | Some _ =>
      Ok (mkManifest cipher (ldBackup ld) (ldPg ld) (ldOption ld) (ldAnnotation ld) (sortBy mdName strLeb (ldDbs ld)) targets
            (sortBy mlName strLeb links) (sortBy mpName strLeb paths) (sortPacks (mkMfiles x (msBase s) (msPacks s))))
  end.
