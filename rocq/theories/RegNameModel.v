(** The expressions for names of WAL segments, archive files and backups.  Models the macros of src/command/archive/common.h:39-63,
    src/common/compress/helper.h:37, src/command/backup/common.h:21 and src/info/infoArchive.h:22, walIsSegment() and walIsPartial()
    (src/command/archive/common.c:250-262, 326-348), backupRegExp() (src/command/backup/common.c:83-142) and the expressions built in
    walSegmentFind() (src/command/archive/find.c:84-86) and for a single file in archive-get (src/command/archive/get/get.c:161-163). *)
From Coq Require Import String Ascii.
From Verif Require Import Base Str RegModel.
Open Scope Z_scope.

(** The text of a C string literal *)
Definition txt (s : string) : str := map (fun a => Z.of_nat (nat_of_ascii a)) (list_ascii_of_string s).

(** common/compress/helper.h:37 COMPRESS_TYPE_REGEXP *)
Definition compressTypeRegExp : str := txt "(\.gz|\.lz4|\.zst|\.xz|\.bz2)".
(** archive/common.h:39 WAL_SEGMENT_PARTIAL_EXT *)
Definition walPartialExt : str := txt ".partial".
(** archive/common.h:42-45 WAL_SEGMENT_PREFIX_REGEXP, WAL_SEGMENT_REGEXP *)
Definition walSegmentPrefixRegExp : str := txt "^[0-F]{24}".
Definition walSegmentRegExp : str := walSegmentPrefixRegExp ++ txt "$".
(** archive/common.h:49 WAL_SEGMENT_PARTIAL_REGEXP *)
Definition walSegmentPartialRegExp : str := walSegmentPrefixRegExp ++ txt "(\.partial){0,1}$".
(** archive/common.h:56 WAL_SEGMENT_DIR_REGEXP *)
Definition walSegmentDirRegExp : str := txt "^[0-F]{16}$".
(** archive/common.h:58 WAL_SEGMENT_FILE_REGEXP *)
Definition walSegmentFileRegExp : str := txt "^[0-F]{24}-[0-f]{40}" ++ compressTypeRegExp ++ txt "{0,1}$".
(** info/infoArchive.h:22 REGEX_ARCHIVE_DIR_DB_VERSION *)
Definition archiveDirRegExp : str := txt "^[0-9]+(\.[0-9]+)*-[0-9]+$".
(** command/backup/common.h:21 DATE_TIME_REGEX *)
Definition dateTimeRegExp : str := txt "[0-9]{8}\-[0-9]{6}".

(** archive/common.c:326-348 walIsSegment *)
Definition walIsSegment (s : str) : res bool := regExpMatchOne walSegmentPartialRegExp s.
(** archive/common.c:250-262 walIsPartial *)
Definition walIsPartial (s : str) : bool := (length walPartialExt <=? length s)%nat && strEqb (skipn (length s - length walPartialExt) s) walPartialExt.
(** archive/find.c:84-86 and archive/get/get.c:161-163 the expression for one WAL segment *)
Definition walFindRegExp (walSegment : str) : str :=
  txt "^" ++ firstn 24 walSegment ++ (if walIsPartial walSegment then walPartialExt else []) ++ txt "-[0-f]{40}" ++ compressTypeRegExp ++ txt "{0,1}$".

(** command/backup/common.c:83-142 backupRegExp *)
Definition backupRegExp (full differential incremental noAnchorEnd : bool) : str :=
  (txt "^" ++ dateTimeRegExp ++ txt "F") ++
  (if differential || incremental then
     (if full then txt "(\_" else txt "\_") ++ dateTimeRegExp ++
     (if differential && incremental then txt "(D|I)" else if differential then txt "D" else txt "I") ++
     (if full then txt "){0,1}" else [])
   else []) ++
  (if noAnchorEnd then [] else txt "$").
