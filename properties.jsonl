{"id": "C01", "title": "Base64 round trip", "statement": "Decoding the base64 (standard or URL alphabet) encoding of any byte string returns exactly that byte string, and the encoding passes validation.", "quantifier": "every byte string of any length, both base64 alphabets", "why_tests_cant": "unbounded input space; tests cover a handful of strings per length class", "anchors": ["src/common/encode.c: encodeToStrBase64, decodeToBinBase64, decodeToBinValidateBase64", "src/common/encode.c: encodeToStr, decodeToBin"]}
{"id": "C02", "title": "Base64 decoder accepts only well-formed text and predicts its output size", "statement": "A string is accepted by the base64 decoder only if its length is a multiple of four, every non padding character is in the alphabet and padding appears only at the end; the number of bytes written always equals the size the caller is told to allocate.", "quantifier": "every character string", "why_tests_cant": "the set of malformed strings is infinite; a size mismatch on any of them is a buffer overrun", "anchors": ["src/common/encode.c: decodeToBinValidateBase64, decodeToBinSizeBase64, decodeToBinBase64"]}
{"id": "C03", "title": "Hex round trip and exactness", "statement": "Hex decoding the hex encoding of any byte string returns it; the decoder accepts exactly the even-length strings of hex digits (either case).", "quantifier": "every byte string and every character string", "why_tests_cant": "unbounded input space", "anchors": ["src/common/encode.c: encodeToStrHex, decodeToBinHex, decodeToBinValidateHex"]}
{"id": "C04", "title": "Decoders are memory safe on every byte", "statement": "Validating an arbitrary (untrusted) string never reads outside the decoder's lookup table.", "quantifier": "every character string, including bytes 0x80-0xFF, under both signednesses of char", "why_tests_cant": "only shows on inputs with the high bit set, and then as undefined behaviour which a test may not observe", "anchors": ["src/common/encode.c: decodeToBinValidateBase64, decodeToBinValidateHex"]}
{"id": "C05", "title": "Varint-128 round trip and self-delimitation", "statement": "Reading a varint that was written returns the written 64-bit value and consumes exactly the written bytes whatever follows; writing never needs more than ten bytes.", "quantifier": "all 2^64 values, every suffix", "why_tests_cant": "2^64 values", "anchors": ["src/common/type/convert.c: cvtUInt64ToVarInt128, cvtUInt64FromVarInt128", "src/common/io/read.c: ioReadVarIntU64", "src/common/io/write.c: ioWriteVarIntU64"]}
{"id": "C06", "title": "Varint-128 decoder rejects encodings it cannot represent", "statement": "An encoding whose value does not fit in 64 bits, or that never terminates, is reported as a format error rather than silently truncated.", "quantifier": "every byte string", "why_tests_cant": "needs the whole space of malformed encodings", "anchors": ["src/common/type/convert.c: cvtUInt64FromVarInt128", "src/common/io/read.c: ioReadVarIntU64"]}
{"id": "C07", "title": "Zig-zag integer mapping is a bijection", "statement": "The zig-zag mapping used for signed values maps signed 32/64-bit integers one-to-one onto unsigned ones and back.", "quantifier": "all 2^32 / 2^64 integers in both directions", "why_tests_cant": "2^64 values", "anchors": ["src/common/type/convert.h: cvtInt32ToZigZag, cvtInt32FromZigZag, cvtInt64ToZigZag, cvtInt64FromZigZag"]}
{"id": "C08", "title": "String ids round trip and are injective", "statement": "Converting a string to a packed 64-bit string id and back returns the string; two different (string, sequence) pairs never share an id; a string is rejected exactly when it cannot be represented.", "quantifier": "every string and every sequence number", "why_tests_cant": "unbounded strings; collisions would make two different options or commands identical", "anchors": ["src/common/type/stringId.c: strIdBitFromZN, strIdFromZN, strIdToZN, strIdGenerate"]}
{"id": "C09", "title": "Pack protocol round trip", "statement": "Reading back a pack written by any legal sequence of field writes (including NULLs, defaults, id gaps and arbitrarily nested objects/arrays; ids increase, and an id may not be omitted after a NULL or default that was written with an id further on) yields exactly the same fields with the same ids, types and values, and leaves the reader exactly after the pack.", "quantifier": "every finite tree of fields with arbitrary ids, nesting and values", "why_tests_cant": "unbounded trees of fields; the delta encoding of ids makes any error corrupt everything after it", "anchors": ["src/common/type/pack.c: pckWriteTag, pckReadTagNext, pckReadTag, pckWriteArrayBegin, pckWriteObjBegin, pckReadObjBegin"]}
{"id": "C10", "title": "Pack readers may skip fields they do not know", "statement": "A reader that skips any fields other than whole containers (by asking for a later id, or by ending the enclosing container early) still reads every following field correctly, and any bytes at all are read or rejected with a format error.", "quantifier": "every pack and every subset of fields that is read", "why_tests_cant": "the number of skip patterns is exponential in the number of fields", "anchors": ["src/common/type/pack.c: pckReadTag, pckReadConsumeBuffer, pckReadObjEnd, pckReadArrayEnd"]}
{"id": "C11", "title": "LSN text round trip", "statement": "Parsing the text form of any 64-bit LSN returns the LSN, and the parser rejects text that is not two hex numbers separated by one slash.", "quantifier": "all 2^64 LSNs and all strings", "why_tests_cant": "2^64 values", "anchors": ["src/postgres/interface.c: pgLsnFromStr, pgLsnToStr"]}
{"id": "C12", "title": "LSN range to WAL segment list is exact", "statement": "The list of WAL segments computed for an LSN range contains every segment that holds a byte of the range, no other segment, in order and without duplicates.", "quantifier": "every timeline, every LSN range, every power-of-two segment size from 1MB to 1GB", "why_tests_cant": "the arithmetic straddles the 4GB boundary differently for each segment size", "anchors": ["src/postgres/interface.c: pgLsnFromWalSegment, pgLsnToWalSegment, pgLsnRangeToWalSegmentList"]}
{"id": "C13", "title": "Next WAL segment and WAL ranges follow PostgreSQL's sequence", "statement": "The successor of a WAL segment name is the segment holding the next byte of WAL on the same timeline, and a range of n segments is the n-fold iteration of it.", "quantifier": "every timeline and segment, every segment size, every range length", "why_tests_cant": "long carries appear only at boundaries; range length is unbounded", "anchors": ["src/command/archive/common.c: walSegmentNext, walSegmentRange"]}
{"id": "C14", "title": "Expire never leaves a backup whose ancestors are gone", "statement": "After any expire (full, diff, time-based or adhoc), every backup still listed has its whole chain of prior backups still listed.", "quantifier": "every backup history, every retention configuration", "why_tests_cant": "exponentially many dependency histories and retention settings", "anchors": ["src/command/expire/expire.c: expireBackup, expireFullBackup, expireDiffBackup, expireTimeBasedBackup, expireAdhocBackup", "src/info/infoBackup.c: infoBackupDataDependentList, infoBackupDataDelete"]}
{"id": "C15", "title": "Full retention keeps exactly the newest N full backups", "statement": "With count-based full retention N, the full backups remaining are exactly the N newest (all when there are fewer), and a diff/incr backup is removed by this pass only when its full backup is.", "quantifier": "every backup history and N >= 1", "why_tests_cant": "unbounded histories", "anchors": ["src/command/expire/expire.c: expireFullBackup"]}
{"id": "C16", "title": "Diff retention", "statement": "With diff retention N, at least the newest N differential (full counted where documented) backups remain and no full backup is removed by the pass.", "quantifier": "every backup history and N >= 1", "why_tests_cant": "unbounded histories", "anchors": ["src/command/expire/expire.c: expireDiffBackup"]}
{"id": "C17", "title": "Time-based retention never drops below the window", "statement": "With time-based full retention of D days a full backup is removed only if another, newer full backup that itself is at least D days old remains.", "quantifier": "every backup history, every clock value, every D", "why_tests_cant": "depends on the relation of arbitrary timestamps", "anchors": ["src/command/expire/expire.c: expireTimeBasedBackup"]}
{"id": "C18", "title": "Adhoc expire honours dependencies and guards", "statement": "Expiring a given backup removes exactly it and the backups that depend on it, and refuses when that would remove the last full backup of the current cluster.", "quantifier": "every backup history and every requested label", "why_tests_cant": "unbounded histories", "anchors": ["src/command/expire/expire.c: expireAdhocBackup"]}
{"id": "C19", "title": "WAL needed by a retained backup is never expired", "statement": "When archive expiry runs, no WAL file from the start of any retained backup to its stop, nor any WAL after the retention-th newest backup's start, is removed, provided later backups of a cluster start at later WAL; every other WAL file older than the start of the retention-th newest backup is removed.", "quantifier": "every set of backups, archive contents and retention settings", "why_tests_cant": "unbounded sets of WAL files and ranges", "anchors": ["src/command/expire/expire.c: removeExpiredArchive, expireArchiveId"]}
{"id": "C20", "title": "A crash during expire is recoverable", "statement": "If expire stops at any point, the next command that loads backup.info sees only backups that are complete on storage and whose ancestors are listed and complete.", "quantifier": "every history, configuration and crash point", "why_tests_cant": "every prefix of the storage operations is a possible crash", "anchors": ["src/command/expire/expire.c: cmdExpire, expireBackup", "src/info/infoBackup.c: infoBackupLoadFileReconstruct"]}
{"id": "C21", "title": "backup.info reconstruction is sound and complete", "statement": "Reconstruction removes exactly the entries whose manifest is missing together with their dependents, and adds only complete backups that belong to a known cluster and whose prior is listed.", "quantifier": "every backup.info content and every storage content", "why_tests_cant": "unbounded combinations of listed and stored backups", "anchors": ["src/info/infoBackup.c: infoBackupLoadFileReconstruct, infoBackupSetExists"]}
{"id": "C22", "title": "Expire does not delete a resumable backup", "statement": "Directory clean up removes only directories that are not listed, except that the newest directory is kept when it is a resumable partial backup.", "quantifier": "every directory listing and backup.info", "why_tests_cant": "unbounded listings", "anchors": ["src/command/expire/expire.c: removeExpiredBackup"]}
{"id": "C23", "title": "History expiry acts on the repository it inspects", "statement": "Backup history manifests removed from a repository are exactly those of that repository that are older than the retention threshold and not needed.", "quantifier": "every number of repositories and every history content", "why_tests_cant": "requires two repositories with diverging content", "anchors": ["src/command/expire/expire.c: removeExpiredHistory"]}
{"id": "C24", "title": "Backup labels are unique and ordered", "statement": "The label chosen for a new backup differs from, and sorts after, every label already present in the repository and in its history (of its own backup set for a differential or incremental backup), or the backup fails with a clock error.", "quantifier": "every set of existing labels, every clock value, every backup type", "why_tests_cant": "clock skew and histories are unbounded", "anchors": ["src/command/backup/label.c.inc: backupLabelCreate", "src/command/backup/common.c: backupLabelFormat"]}
{"id": "C25", "title": "Block map round trip", "statement": "Reading the serialized form of any block map produced by a backup returns the same map.", "quantifier": "every block map, any number of blocks, references, bundles and super blocks", "why_tests_cant": "the encoding is stateful across references; errors depend on long histories", "anchors": ["src/command/backup/blockMap.c: blockMapWrite, blockMapNewRead"]}
{"id": "C26", "title": "Block incremental backup restores the exact file", "statement": "For any sequence of versions of a file backed up with block incremental, restoring from the last backup reproduces the last version byte for byte, whatever was in the destination file before.", "quantifier": "every sequence of file contents, block and super block sizes, and initial destination contents", "why_tests_cant": "unbounded sequences of versions and contents", "anchors": ["src/command/backup/blockIncr.c: blockIncrProcess", "src/command/backup/blockMap.c: blockMapWrite, blockMapNewRead", "src/command/restore/blockDelta.c: blockDeltaNew, blockDeltaNext", "src/command/restore/blockChecksum.c"]}
{"id": "C27", "title": "Stream filters do not depend on buffer boundaries", "statement": "The output of the block incremental, block checksum and size filters depends only on the bytes fed in, not on how they are split into buffers.", "quantifier": "every byte string and every way of splitting it", "why_tests_cant": "number of splittings is exponential", "anchors": ["src/command/backup/blockIncr.c: blockIncrProcess", "src/command/restore/blockChecksum.c: blockChecksumProcess", "src/common/io/filter/size.c"]}
{"id": "C28", "title": "Timeline verification accepts exactly the reachable targets", "statement": "A target timeline is accepted exactly when the backup's timeline is the target or an ancestor of it whose switch point is not before the backup's stop point.", "quantifier": "every history file, backup timeline and LSN", "why_tests_cant": "unbounded histories", "anchors": ["src/command/restore/timeline.c: historyParse, timelineVerify"]}
{"id": "C29", "title": "archive-push never overwrites a different segment", "statement": "Pushing a WAL segment that already exists in a repository with different content fails before anything is written anywhere, and pushing one with the same content changes nothing.", "quantifier": "every repository state, any number of repositories, any error pattern", "why_tests_cant": "combinations of repositories, states and failures", "anchors": ["src/command/archive/push/file.c: archivePushFile"]}
{"id": "C30", "title": "archive-push success means the WAL is in every repository", "statement": "archive-push reports success for a segment only when every configured repository holds that segment with that content (unless it was dropped because the queue exceeded its limit, which is warned about).", "quantifier": "every failure pattern on any number of repositories, every schedule of asynchronous pushes", "why_tests_cant": "combinations of failures and interleavings", "anchors": ["src/command/archive/push/file.c: archivePushFile", "src/command/archive/push/push.c: cmdArchivePush, cmdArchivePushAsync", "src/command/archive/common.c: archiveAsyncStatus"]}
{"id": "C31", "title": "Asynchronous push list is exactly the outstanding work", "statement": "The list of segments to push is exactly the ready segments without an ok status; status files that no longer correspond to ready segments are removed and no other.", "quantifier": "every spool and archive_status content", "why_tests_cant": "unbounded directory contents", "anchors": ["src/command/archive/push/push.c: archivePushProcessList, archivePushReadyList", "src/common/type/stringList.c: strLstMergeAnti"]}
{"id": "C32", "title": "archive-get duplicate detection", "statement": "When several repositories offer a requested segment, archive-get fails with a duplicate error exactly when they offer different contents (checksums).", "quantifier": "every number of repositories, archive ids and candidate files", "why_tests_cant": "depends on combinations of archive ids and checksums", "anchors": ["src/command/archive/get/get.c: archiveGetFind"]}
{"id": "C33", "title": "archive-get queue keeps what is needed next", "statement": "After queue preparation, only requested upcoming segments (and their warnings) remain in the spool queue, and the fetch list is exactly the wanted segments that are not there, in order.", "quantifier": "every spool content, request and queue size", "why_tests_cant": "unbounded directory contents", "anchors": ["src/command/archive/get/get.c: queueNeed"]}
{"id": "C34", "title": "Lock exclusion", "statement": "At no time do two processes with different exec ids both hold the lock of the same stanza.", "quantifier": "every number of processes and every interleaving of acquire and release steps", "why_tests_cant": "interleavings cannot be enumerated by tests", "anchors": ["src/common/lock.c: lockAcquire, lockRelease, lockRead"]}
{"id": "C35", "title": "Parallel executor runs every job exactly once", "statement": "Every job produced by the job callback is sent to exactly one client, its result is returned exactly once, and the executor reports done only after all jobs of all clients are finished.", "quantifier": "every number of clients and jobs, every completion order", "why_tests_cant": "completion orders are unbounded", "anchors": ["src/protocol/parallel.c: protocolParallelProcess, protocolParallelResult, protocolParallelDone"]}
{"id": "C36", "title": "Every file is backed up exactly once and bundles respect limits", "statement": "The backup job generator hands out every queued file in exactly one job; a bundle never mixes targets, holds only files up to the bundle limit and is closed as soon as its size is reached; bundles are numbered from 1 without gaps.", "quantifier": "every manifest and every order of client requests", "why_tests_cant": "unbounded manifests and request schedules", "anchors": ["src/command/backup/process.c.inc: backupJobCallback, backupProcessQueue"]}
{"id": "C37", "title": "Every file is restored exactly once", "statement": "The restore job generator hands out every manifest file in exactly one job, and all files of one job come from the same bundle of the same backup.", "quantifier": "every manifest and every order of client requests", "why_tests_cant": "unbounded manifests and request schedules", "anchors": ["src/command/restore/process.c.inc: restoreJobCallback, restoreProcessQueue"]}
{"id": "C38", "title": "Incremental references resolve", "statement": "In every backup produced by any sequence of full, diff and incr backups, each file that is not stored in that backup references a listed ancestor backup that is still in the repository and stores it with the same size and checksum, and the bytes restore reads are those that were stored for a content of that size and checksum; also after any expiration that removes backups with those based on them.", "quantifier": "every sequence of backups and file-system changes", "why_tests_cant": "unbounded histories", "anchors": ["src/info/manifest/manifest.c: manifestBuildIncr", "src/command/backup/incr.c.inc"]}
{"id": "C39", "title": "A changed file is always copied", "statement": "A file whose size or timestamp differs from the prior backup is never taken by reference without having its content checksum compared; with delta every file's checksum is compared; delta is enabled exactly when requested or when clocks, timelines or options make timestamps unreliable; copied files record the size and checksum of the content copied, and files are dropped only when missing.", "quantifier": "every pair of manifests and clock relation", "why_tests_cant": "depends on arbitrary timestamps", "anchors": ["src/info/manifest/manifest.c: manifestDeltaCheck, manifestBuildIncr"]}
{"id": "C40", "title": "Info file pair survives a crash while saving", "statement": "After a crash at any point while saving a main/copy info file pair, loading returns either the old or the new content, never an error or a mix.", "quantifier": "every old and new content and every crash point", "why_tests_cant": "crash points and contents", "anchors": ["src/info/info.c: infoLoad", "src/info/infoBackup.c: infoBackupSaveFile", "src/info/infoArchive.c: infoArchiveSaveFile"]}
{"id": "C41", "title": "Archive id lookup", "statement": "Finding the archive for a backup's cluster returns an archive id whose version and system id match the requested cluster, preferring the requested history id, or fails.", "quantifier": "every pair of histories", "why_tests_cant": "unbounded histories", "anchors": ["src/info/infoArchive.c: infoArchiveIdHistoryMatch"]}
{"id": "C42", "title": "Page checksum error list is exact", "statement": "The recorded list of invalid pages names exactly the pages that failed validation and expands from ranges to exactly the original list.", "quantifier": "every sequence of pages and error patterns", "why_tests_cant": "exponentially many error patterns", "anchors": ["src/command/backup/pageChecksum.c: pageChecksumProcess", "src/command/backup/process.c.inc: backupJobResultPageChecksum"]}
{"id": "C43", "title": "Async status: errors are never reported as success", "statement": "If the last asynchronous run recorded an error for a segment, or a global error newer than nothing else, the waiting command reports an error and never success.", "quantifier": "every spool content", "why_tests_cant": "all combinations of ok/error/global status files", "anchors": ["src/command/archive/common.c: archiveAsyncStatus, archiveAsyncStatusErrorWrite, archiveAsyncStatusOkWrite"]}
{"id": "C44", "title": "Restore preserves a destination file only when it matches", "statement": "With delta restore, a destination file is left untouched only when its size and (unless force) checksum equal the manifest's, otherwise it is rewritten and the result's checksum is verified.", "quantifier": "every destination content and every manifest entry", "why_tests_cant": "unbounded contents", "anchors": ["src/command/restore/file.c.inc: restoreFile"]}
{"id": "C45", "title": "Ordered list merge is set difference", "statement": "The anti-merge of two sorted lists is exactly the elements of the first that are not in the second, in order.", "quantifier": "all sorted lists", "why_tests_cant": "unbounded lists", "anchors": ["src/common/type/stringList.c: strLstMergeAnti"]}
{"id": "C46", "title": "Integer text conversions are exact", "statement": "Each string to integer conversion accepts exactly the texts of integers in the target range, in any base from 2 to 16, and returns the integer; written integers and modes read back.", "quantifier": "every string, every base, every integer", "why_tests_cant": "unbounded strings and 64-bit ranges", "anchors": ["src/common/type/convert.c: cvtZToIntBase, cvtZToInt64Base, cvtZToUIntBase, cvtZToUInt64Base, cvtZToMode, cvtIntToZ, cvtUInt64ToZ, cvtModeToZ"]}
{"id": "C47", "title": "Dates convert to the right epoch second", "statement": "For every valid date and time with a time zone offset, the computed epoch is the number of seconds since 1970-01-01 00:00:00 UTC in the Gregorian calendar; invalid dates, times and offsets are rejected.", "quantifier": "every string, every date from 1970 on, every time of day and time zone offset", "why_tests_cant": "all calendar dates and offsets", "anchors": ["src/common/time.c: epochFromParts, dayOfYear, datePartsValid, timePartsValid, tzOffsetSeconds", "src/common/type/convert.c: cvtZToTime"]}
{"id": "C48", "title": "Asynchronous archive-get returns what the repository has", "statement": "A segment returned by the waiting archive-get is the content the asynchronous process (or the command itself) got; not found is reported only on a fresh ok file without a segment or after asking the repositories; errors of the asynchronous process are thrown; the asynchronous process leaves for each request the segment, an ok file or an error file and changes nothing else.", "quantifier": "every spool content, every behaviour of other processes between iterations, every number of iterations, requests and job completion order", "why_tests_cant": "interleavings of two processes and unbounded waits", "anchors": ["src/command/archive/get/get.c: cmdArchiveGet, cmdArchiveGetAsync"]}
{"id": "C49", "title": "JSON is read back as written", "statement": "Every value that the writer accepts is written as JSON text that passes validation and is read back as the same value; every JSON text of a value is read as that value; validation of any text ends in acceptance or a format error.", "quantifier": "every value of any depth and size, every JSON text with any white space and escapes, every string for validation", "why_tests_cant": "unbounded nesting and text", "anchors": ["src/common/type/json.c: jsonFromVar, jsonToVar, jsonValidate, jsonReadSkip, jsonWriteVar, jsonReadVar"]}
{"id": "C50", "title": "Fields of JSON objects are found exactly", "statement": "Looking up ascending field names in an object with ascending keys returns each field's value or reports it absent; typed integer reads return the value exactly when it fits the type and fail otherwise.", "quantifier": "every object, every list of fields, every integer text", "why_tests_cant": "unbounded objects and unknown keys between the known ones", "anchors": ["src/common/type/json.c: jsonReadKeyExpect, jsonReadKeyRequire, jsonReadInt, jsonReadInt64, jsonReadUInt, jsonReadUInt64"]}
{"id": "C51", "title": "Ini lines are read back as written", "statement": "A key and a JSON value written as one line of an info file are read back as the same key and value even if the key contains '=', and no line is ever read as another key and value; lines of configuration files are read with surrounding white space removed.", "quantifier": "every section, key and value", "why_tests_cant": "keys are file names chosen by the user and may hold any text", "anchors": ["src/common/ini.c: iniValueNext", "src/common/type/json.c: jsonValidate", "src/common/type/string.c: strTrim", "src/common/io/read.c: ioReadLineParam"]}
{"id": "C52", "title": "Info files load as saved and the checksum covers all of it", "statement": "A saved info file loads with the same version, passphrase and entries in order; a file is accepted only if its checksum matches all its other entries, and the checksum text determines these entries.", "quantifier": "every data, every text of a file and every hash", "why_tests_cant": "unbounded files and hostile edits of them", "anchors": ["src/info/info.c: infoNewLoad, infoSave, infoSaveSection, infoSaveValue, INFO_CHECKSUM_BEGIN"]}
{"id": "C53", "title": "Resuming a backup keeps exactly what is valid", "statement": "A backup is resumed only from an incomplete full backup of the same version and compression; a file is resumed only from a stored file of the same name and size (and timestamp, or compared by checksum), everything else is removed from the repository, nothing that may be resumed is lost, and a resumed file is kept only if its repository file has the recorded size and checksum.", "quantifier": "every repository tree, every pair of manifests, every repository content", "why_tests_cant": "unbounded trees and every possible point of interruption", "anchors": ["src/command/backup/resume.c.inc: backupResumeClean, backupResumeFind", "src/command/backup/file.c.inc: backupFile", "src/common/compress/helper.c: compressTypeFromName, compressExtStrip"]}
{"id": "C54", "title": "Packed manifest files are lossless", "statement": "The packed list of files in a manifest behaves as a plain list: after any sequence of adding and replacing files and adding references, each file reads back with every field as it was last put there, also when owners and references have been added since; a pack made before the defaults are known reads back with the defaults set later.", "quantifier": "every file, every sequence of calls, every base time", "why_tests_cant": "17 optional fields in any combination and unbounded histories", "anchors": ["src/info/manifest/store.c.inc: manifestFilePack, manifestFileUnpack, manifestFileAdd, manifestFileUpdateByIdx, manifestOwnerCache", "src/info/manifest/manifest.c: manifestBackupLabelSet"]}
{"id": "C55", "title": "A manifest loads as saved", "statement": "Every manifest whose values are in the ranges of their types is saved, and its text loads as the same manifest: the same backup, database and option data, annotations and references, and the same databases, targets, links, paths and files with all their fields, whichever of them equal the defaults and are left out.", "quantifier": "every manifest with any number of files, paths, links, targets and databases, any hash and any buffer size", "why_tests_cant": "each optional field of each entry is left out or written depending on defaults, and names hold any text", "anchors": ["src/info/manifest/serialize.c.inc: manifestSave, manifestSaveCallback, manifestLoadCallback", "src/info/manifest/manifest.c: manifestNewLoad"]}
{"id": "C56", "title": "Filter groups neither lose nor add data", "statement": "Reading through a group of filters until the end returns, in order and exactly once, what the filters in turn make of all the data delivered by the driver, whatever the sizes of the reads, of the pieces delivered and of the buffers between the filters; each filter without output sees exactly the stream at its place. Writing through a group and closing gives the driver what the filters make of all that was written. Data written through filters and read back through their inverses is the same.", "quantifier": "every list of filters of any behaviour within their contract, every driver, every sequence of read, small read, line read and write calls with any sizes, every buffer size", "why_tests_cant": "interleavings of partial outputs of any number of filters with any buffer sizes", "anchors": ["src/common/io/filter/group.c: ioFilterGroupOpen, ioFilterGroupProcess", "src/common/io/filter/filter.c: ioFilterProcessIn, ioFilterProcessInOut, ioFilterDone", "src/common/io/filter/buffer.c: ioBufferProcess", "src/common/io/read.c: ioReadInternal, ioRead, ioReadSmall, ioReadLineParam", "src/common/io/write.c: ioWrite, ioWriteClose"]}
{"id": "C57", "title": "Accepted link destinations do not overlap", "statement": "manifestLinkCheck() accepts a list of links exactly if no link leads into the data directory, no two links to directories have the same directory or one inside the other, no link to a file shares its directory with a link to a directory, and the first file link into a directory names another file than the later ones. Destinations that are relative are followed part by part from the directory of the link.", "quantifier": "all lists of targets in all orders, all destinations, all data directories; relative paths of any length", "why_tests_cant": "Only the nearest neighbour in a sorted list is compared, so soundness is an argument about the order of all strings; tests try a handful of links.", "anchors": ["src/info/manifest/link.c.inc:manifestLinkCheck", "src/info/manifest/link.c.inc:manifestLinkCheckOne", "src/info/manifest/store.c.inc:manifestTargetPath", "src/common/type/string.c:strPathAbsolute"]}
{"id": "C58", "title": "Cleaning the target directories of a restore removes exactly what is not in the backup and nothing else", "statement": "Cleaning a directory with delta leaves exactly the entries that are in the manifest with all their directories (or are files to be kept), with owner and mode of the manifest; when calls fail or the process stops at any point, entries that are to stay stay and nothing outside is touched. Without delta or force nothing that existed is removed, and a target that is not empty, or of another user, is an error before anything is changed. pg_control is removed before anything else is changed and no file is ever created. After success all paths and links of the manifest exist and no file in a target is left that is not in the backup. If no target path has links in it, everything outside of the targets is as before.", "quantifier": "all file systems with links, all manifests, targets and options, all users, every choice of system calls that fail", "why_tests_cant": "Tests clean a few prepared directories; the claims are about every tree of files, directories and links, every manifest and a failure at every single call.", "anchors": ["src/command/restore/clean.c.inc:restoreCleanBuild", "src/command/restore/clean.c.inc:restoreCleanBuildRecurse", "src/command/restore/clean.c.inc:restoreCleanOwnership", "src/command/restore/clean.c.inc:restoreCleanMode", "src/storage/posix/storage.c storagePosixPathCreate", "src/storage/posix/storage.c storagePosixInfo"]}
{"id": "C59", "title": "Remapping for a restore moves each target and its link together and drops only links that were not asked for", "statement": "For every manifest where each link leads to its target, remapping with pg-path, tablespace-map, tablespace-map-all, link-map and link-all either fails or gives exactly the manifest specified: the data directory is pg-path, a tablespace goes to the path given for its name or id, else to tablespace-map-all/name, else stays; a link of the link map goes to the path given (directory and file for a file link), a directory or file of the link map is made a link with the owner of the data directory, and other links are dropped unless link-all. Paths and files of the manifest are not changed. In the result each target again has exactly one link and it leads to the target. It fails exactly if a tablespace has two different paths, a key of the tablespace map is no tablespace, a link is not in the backup or the destination of a file has no directory.", "quantifier": "all manifests with unique names where links and targets belong together, all option values", "why_tests_cant": "Tests remap a handful of links; the claims are about any number of targets and any combination of map options, including keys that match by name and by id.", "anchors": ["src/command/restore/remap.c.inc:restoreManifestMap", "src/info/manifest/store.c.inc:manifestTargetUpdate", "src/info/manifest/store.c.inc:manifestLinkUpdate", "src/info/manifest/store.c.inc:manifestLinkRemove", "src/info/manifest/store.c.inc:manifestTargetRemove"]}
{"id": "C60", "title": "Regular expressions accept exactly the names they are meant for and their prefix is the start of all their matches", "statement": "The expressions for WAL segments, archive files, the search for one segment and backup labels match exactly the names of those forms. If regExpPrefix() gives a prefix, every string matched by the expression begins with it, so object stores that list only names with the prefix lose nothing, provided the expression has no '|' outside of groups and the prefix is not followed by '*', '?' or an interval. Both conditions are needed: without them the prefix is wrong.", "quantifier": "all strings; all expressions of the modelled part of POSIX extended regular expressions; all segment names", "why_tests_cant": "Tests match a few names and expressions; the tests of regExpPrefix() even expect the wrong prefix of '^ABC*' and '^ABC|'. That nothing else matches, and that no match is lost by the prefix, are statements about all strings.", "anchors": ["src/common/regExp.c regExpNew regExpMatch regExpMatchOne regExpPrefix", "src/command/archive/common.h WAL_SEGMENT_REGEXP WAL_SEGMENT_FILE_REGEXP", "src/command/archive/common.c walIsSegment", "src/command/archive/find.c walSegmentFind", "src/command/backup/common.c backupRegExp", "src/storage/s3/storage.c storageS3ListInternal"]}
{"id": "C61", "title": "Iterating over storage gives every matching entry once, in the order asked for", "statement": "For every finite tree a storage driver lists, every sort order, with and without recursion and with any expression: the loop of storageItrMore() and storageItrNext() ends without error and gives exactly the entries of the tree whose whole name matches, each once when names in a path differ. Without an order they come as the driver has them with each path directly before its content, ascending they are in strict order part by part, and descending is the exact reverse, so content is before its path. A missing path is an error, NULL or an empty list as asked; asking for more twice changes nothing and next without more is an error. storageList() gives the matching names. Without recursion a driver that lists only what begins with the prefix of the expression (object stores) gives the same; with recursion it does not.", "quantifier": "all finite trees of entries with any names and contents (including paths that are gone when read), all sort orders, recursion or not, all compiled expressions, all sufficient bounds on rounds", "why_tests_cant": "Tests list a few fixed directories with one or two levels; the interplay of the stack, the skip flag for descending order, non-matching paths with matching content and empty paths has unboundedly many shapes.", "anchors": ["src/storage/iterator.c storageItrPathAdd", "src/storage/iterator.c storageItrNew", "src/storage/iterator.c storageItrMore", "src/storage/iterator.c storageItrNext", "src/storage/storage.c storageList", "src/storage/s3/storage.c storageS3ListInternal"]}
{"id": "C62", "title": "Selective restore zeroes the files of exactly the databases that were not selected", "statement": "For every manifest and all lists of databases to include and exclude: the options are accepted exactly when the backup has databases, all ids are 32 bit, each database given is found by id or name, and included ones are given once, are no system databases and are not excluded. Then a file is zeroed exactly when it is no PG_VERSION file and is in the base or tablespace directory of a database chosen: an excluded one, or with databases to include any found one that is neither included nor a system database. So files of included databases, of system databases that are not excluded and files outside of database directories are never zeroed, and files of excluded and other user databases always are. Unknown databases, system databases and excluded ones to include, and a backup without databases give their errors.", "quantifier": "all manifests (databases, file names, targets, versions) with distinct database names and ids, all option lists, all file names", "why_tests_cant": "Tests check the text of a few expressions for fixed manifests; that the expression, as a regular expression over all possible file names, selects exactly the directories meant is not tested.", "anchors": ["src/command/restore/select.c.inc:restoreSelectiveExpression", "src/command/restore/process.c.inc:restoreFileZeroed", "src/postgres/interface.c:pgTablespaceId", "src/postgres/interface.c:pgDbIsSystem", "src/postgres/interface.c:pgDbIsSystemId"]}
{"id": "C63", "title": "The backup set for a restore is the newest that fits what was asked for, in the first repository that has one", "statement": "For all contents of all repositories: restoreBackupSet() gives a backup exactly when all repositories before its own were passed over (backup.info not loaded, or nothing for the request in it) and it is the one its repository has: the requested label, the newest backup that stopped strictly before the target time, the newest with stop lsn at or below the target lsn with all newer ones above it, or the latest backup if it belongs to the current PostgreSQL history entry. It is always a backup listed in that repository, with the cipher of that repository, and with the repo option no other repository is used. With backups in the order they stopped no later fitting one is in the repository. Each error is exactly one of: everything passed over, a latest backup from a prior version, an lsn that cannot be read, storage not available, a target that cannot be read.", "quantifier": "all lists of repositories with any backup lists, labels, stop times and lsns, all targets, all requested labels, with and without the repo option, any local time conversion", "why_tests_cant": "Tests cover a handful of repositories with two or three backups; boundary equality of times and lsns, missing lsns and the order of repositories combine without bound.", "anchors": ["src/command/restore/select.c.inc:restoreBackupSet", "src/postgres/interface.c:pgLsnFromStr", "src/common/type/convert.c:cvtZToTime"]}
{"id": "C64", "title": "A backup leaves out exactly the files of unlogged relations, except for their init forks", "statement": "For all lists of files: the loop at the end of manifestNewBuild() removes exactly the files of relations whose init fork is in the manifest, and keeps all others in order, if and only if no two files of relations that follow each other have the same id of which one is unlogged and the other (in another path) is not. Nothing but files of relations is ever removed, and init forks are kept. The expressions match exactly paths of databases, files of relations and of temp relations. The loop stays in its buffer exactly if no id has more than 20 digits.", "quantifier": "all lists of distinct file names of any length, all tablespace ids over literal characters and dots", "why_tests_cant": "Whether a relation is dropped depends on the files before it through a cache of the last id; tests use a few files in one database.", "anchors": ["src/info/manifest/manifest.c:manifestNewBuild", "src/info/manifest/manifest.c:RELATION_EXP", "src/info/manifest/manifest.c:DB_PATH_EXP"]}
{"id": "C65", "title": "The manifest of a backup has exactly the files, paths and links of the data directory that should be backed up", "statement": "For all data directories, tablespaces and links: if manifestBuildInfo() succeeds the files in the manifest are exactly those in reach (through paths whose contents are not excluded, links and tablespaces) that are not temp files, temp relations, relation caches, files of the running server, WAL of an online backup or excluded, each with its owner, mode, size, time, block size, checksum size and page checksum flag; paths, links and targets likewise. No place in reach is one that must be refused, all targets pass the link check, names differ and are sorted. Every error is due to a place in reach. The result does not depend on the depth of the recursion.", "quantifier": "all trees of storage (any depth, width and contents, also with cycles through links if the walk ends), all options, all tablespace ids over literal characters and dots", "why_tests_cant": "The walk is recursive over an unbounded tree with links and tablespaces that rename what is below them; tests have one tree per case.", "anchors": ["src/info/manifest/build.c.inc:manifestBuildInfo", "src/info/manifest/build.c.inc:manifestBuildBlockIncrSize", "src/info/manifest/build.c.inc:manifestBuildBlockIncrChecksumSize", "src/info/manifest/manifest.c:manifestNewBuild"]}
{"id": "C66", "title": "The verify command reports the WAL of every archive id as it is, for any order of results", "statement": "For all storages and all schedules of the jobs, when verifyProcess() has no job left: every archive id has a result in which the total is the number of WAL files asked for, every segment with one file was checked once, the ranges are the longest runs of segments in sequence (across paths, within a timeline), every file that fails its check is listed with its reason in the range that has its segment, and the valid count is the number of those that passed. A result can be processed whenever it comes.", "quantifier": "all archive ids, WAL paths and files, all filters from a backup set, all outcomes of checks, all interleavings of giving out jobs and processing results", "why_tests_cant": "Ranges grow across paths and calls of a callback that is resumed in the middle of lists, while results come back in any order; tests run with one process and a few segments.", "anchors": ["src/command/verify/verify.c:verifyArchive", "src/command/verify/verify.c:verifyCreateArchiveIdRange", "src/command/verify/verify.c:verifyAddInvalidWalFile", "src/command/verify/verify.c:verifyJobCallback", "src/command/verify/verify.c:verifyProcess", "src/command/verify/verify.c:verifySetBackupCheckArchive"]}
{"id": "C67", "title": "The verify command counts exactly the errors there are, and no errors means that every file of every backup was checked", "statement": "For all storages and all schedules: the error count is exactly that of archive ids not in the history, segments with more than one file, unusable manifests, WAL files that fail and are not missing, and files given out that fail. If it is zero and references are coherent, every needed file of every backup with a usable manifest passes its check. If it is not, something is wrong. Every file of a manifest is counted once, as valid or invalid; a backup is invalid exactly if an invalid file is listed; every listed file fails its check; a failing file of the backup itself makes it invalid. The manifest used is the main one, or the copy if the main one cannot be loaded and the backup is not in progress, and it must be of a database in the history.", "quantifier": "all lists of backups, manifests, references, bundles and outcomes of checks, all interleavings of giving out jobs and processing results", "why_tests_cant": "What is done for a backup depends on whether results of other backups are complete, so it depends on the order in which processes finish; tests have one process and small manifests.", "anchors": ["src/command/verify/verify.c:verifyBackup", "src/command/verify/verify.c:verifyManifestFile", "src/command/verify/verify.c:verifyProcess", "src/command/verify/verify.c:verifyLogInvalidResult", "src/command/verify/file.c:verifyFile"]}
{"id": "C68", "title": "A list is a sequence, however it is laid out in memory", "statement": "For any sequence of inserts, removals, sorts and changes of comparator with places inside the list, no access is outside the memory of the list or to a cell that holds no item, the list holds just the items that the same calls make of a plain sequence, lstFind finds an equal item if and only if there is one (the first one if the list is not sorted), lstGet is exact and out of range is an error, and the memory is never more than twice the largest number of items.", "quantifier": "all item types, comparators that are orders, sequences of calls and places, all sizes below 2^31", "why_tests_cant": "The layout depends on the history: the list starts at a moving cell, is moved down when it meets the end, and doubles; searching is binary or linear depending on the last call. Tests go through a few layouts.", "anchors": ["src/common/type/list.c:lstInsert", "src/common/type/list.c:lstRemoveIdx", "src/common/type/list.c:lstFind", "src/common/type/list.c:lstSort", "src/common/type/list.c:lstClear", "src/common/type/list.c:lstGet"]}
{"id": "C69", "title": "The name of an option, with its key and prefix, means one option", "statement": "In the tables of the program the names are sorted and none can be taken for a name with a key or a prefix; the name written for an option, key and prefix is read back as the same; no two have the same name; what is found for any text is the option with this name now or before (on the command line also the only one that begins so), with the key in the name, a key above 1 only for grouped options and no-/reset- only where allowed; a command name, alone or with a role, means that command.", "quantifier": "all texts given as option or command names, all options, keys and prefixes, all well-formed tables (the tables of the program are shown to be well formed)", "why_tests_cant": "Names are searched with a binary search over 199 options and 39 deprecated names after taking a key and a prefix out of the text, with three kinds of partial match. Tests use a few names.", "anchors": ["src/config/parse.c:cfgParseOption", "src/config/parse.c:cfgParseOptionKeyIdxName", "src/config/parse.c:cfgParseCommandId", "src/config/parse.auto.c.inc"]}
{"id": "C70", "title": "An option has the value of the command line, else of the environment, else of the first section that has it", "statement": "The arguments are accepted if and only if they read as options and words with no secure option, no option given twice unless it is a list, negated or reset only once and not both, and a valid command and role; each option then has just the values given. After the environment and the files are read each option and key has the value of the command line if it was given there, else, if the option is valid for the command, that of the first variable of the environment for it, else that of the first section that has it among [stanza:command], [stanza], [global:command], [global] where the option is allowed, else none; and this is one value.", "quantifier": "all argument lists, environments and configuration lines, all tables of options, commands and roles", "why_tests_cant": "Three sources, four sections, current, deprecated and abbreviated names, keys, negation and reset interact. Tests try a few combinations.", "anchors": ["src/config/parse.c:cfgParse", "src/config/parse.c:parseOptionIdxValue", "src/config/parse.c:cfgParseCommandRoleEnum", "src/common/ini.c:iniSectionKeyList"]}
{"id": "C71", "title": "A group of options has just the keys used, and dropping an index with only defaults keeps keys and values together", "statement": "An option given that is not valid for the command is an error. The map from index to key of a group holds, in order and once each, the keys with a value that is not reset in an option valid for the command, key 1 if there is none, and key 1 always for pg; building it never writes outside its memory. Dropping the indexes that have only defaults leaves in every option of the group exactly the values of the indexes kept, in order, and at least one index. The keys follow the values. The default index is the first one, or the one of the key asked for; a key that the group does not have is an error.", "quantifier": "all tables of options, all values given, all sets of keys and of indexes to drop, all arrays of values", "why_tests_cant": "The loops shift several arrays in place while the number of indexes changes. Tests use one to three keys.", "anchors": ["src/config/parse.c:cfgParse"]}
{"id": "C72", "title": "Sizes and times are read as what they say", "statement": "A text is read as a size if and only if it is digits followed by a unit (none, b, k, kb, kib and so on to p, in any case, and bb) and the number of bytes is less than 2^63; the value is the product. Every other text is a format error. A text is read as a time if and only if it is a number followed by a unit (none, ms, s, m, h, d, w, in any case) and the milliseconds fit 64 bits; the value is the product, and everything else is a format error. Neither has undefined behavior.", "quantifier": "all texts", "why_tests_cant": "The regular expression accepts more than the code that follows can read, positions are counted from the end, and the limits differ by unit. Tests try a few values per unit.", "anchors": ["src/config/common.c:cfgParseSize", "src/config/common.c:cfgParseSizeQualifier", "src/config/common.c:cfgParseTime", "src/common/type/convert.c:cvtZSubNToInt64Base"]}
{"id": "C73", "title": "The value of each option is what its rules say", "statement": "For every command and role, option, index, table of values given on the command line, in the environment and in the files, and build: the rules that are used are those of the first group for the command; an option is resolved after the one it depends on, with the value of that one for the same index; if the dependency is not met a value from the command line is an error and any other is ignored, with the value the rule has for this case; a value that was given is taken exactly if it is one of its type (number, size, time, path, key=value list), within the range for the match value and in the list of allowed values that the program was built with, with its source and its place in the list; else it is the default for the match value, else an error if it is needed for the command, else none; a negated option has no value. The tables of the program have the form this needs: each option is resolved once, dependencies are valid for all commands and roles of the option, and every default is what its text would be if it were given. No value is read that was not resolved.", "quantifier": "all tables of rules in order of kinds (and the tables of the program, for all builds), all commands, roles, options, indexes and tables of given values", "why_tests_cant": "There are 199 options with some 22 commands and 4 roles, and values depend on each other; tests set a few dozen of them. An order that resolves an option before its dependency, or a default out of its range, shows only for the option and command concerned.", "anchors": ["src/config/parse.c:cfgParse (phase 5)", "src/config/parse.c:cfgParseOptionalRule", "src/config/parse.c:cfgParseOptionalFilterDepend", "src/config/parse.c:cfgParseOptionValueCondition", "src/config/parse.c:cfgParseOptionValid", "src/config/parse.c:parseOptionBeta", "src/config/parse.auto.c.inc:parseRuleOption", "src/config/parse.auto.c.inc:optionResolveOrder"]}
{"id": "C74", "title": "Waiting goes on while there is time and always ends", "statement": "A wait of 10 ms or more is tried at least twice more whatever the clock says; while there is time left it goes on and never sleeps past the end; when the time is over it ends after the two retries; once ended it stays so; if the clock goes on by the time slept the number of retries has a bound that depends on the wait time only. Less than 10 ms is not waited for at all.", "quantifier": "all wait times, all sequences of readings of the clock, including ones that go back", "why_tests_cant": "Tests wait a few real intervals; they cannot make the clock jump at each point, nor try all lengths.", "anchors": ["src/common/wait.c:waitNew", "src/common/wait.c:waitRemains", "src/common/wait.c:waitMore"]}
{"id": "C75", "title": "A backup passes the archive check only with all of its WAL", "statement": "If the check for WAL at the end of a backup passes, every byte from the start to the stop of the backup is in a segment with a file that was in the archive, and nothing else was looked for. A duplicate is reported only if the directory had two files of a segment; a timeout only if the last look, just before the clock said that the time is over, found none. If each segment is there once the check passes. It ends if the clock goes on. With archive-copy each segment is in the manifest once with its name, size and the checksum in the name of its file, and what is stored is the WAL compressed and encrypted as the backup is. The file found is the only one of the segment.", "quantifier": "all timelines, segment sizes, LSN ranges and timeouts, all contents of the archive directories, changing at any time, all readings of the clock, compression types and builds", "why_tests_cant": "Tests have a handful of segments in a directory that changes at most once; the list is kept between segments and items are removed from it as it is read, so errors need a certain order of names and moments.", "anchors": ["src/command/archive/find.c:walSegmentFind", "src/command/archive/find.c:walSegmentFindOne", "src/command/backup/complete.c.inc:backupArchiveCheckCopy", "src/common/compress/helper.c:compressTypeFromName", "src/common/compress/helper.c:compressTypePresent"]}
{"id": "C76", "title": "The content of an HTTP response is read whole or not at all", "statement": "Read through buffers of any sizes, the content of a response is given byte for byte and in order, the end is reported once more is asked for, and the connection is then at the first byte after the response, whether the content has a size, comes in chunks with extensions and trailers, or goes to the end of the connection. If the end is reported without an error then what was read is all of the content. A response with a size or in chunks that is cut anywhere before its end never ends without an error, and what was given until then is of the content. What follows on the connection makes no difference. Errors are read and format errors only. No byte the server sends as part of a chunk is lost.", "quantifier": "all states of a response, all streams of bytes, all lists of buffer sizes, all sizes of the line buffer", "why_tests_cant": "Tests have a few short scripted responses; chunk, line and buffer borders can fall together in any way, and a cut can be anywhere.", "anchors": ["src/common/io/http/response.c:httpResponseRead", "src/common/io/read.c:ioReadLineParam", "src/common/io/read.c:ioRead", "src/common/type/string.c:strTrim", "src/common/type/string.c:strChr"]}
{"id": "C77", "title": "Status and headers of an HTTP response decide where its content ends", "statement": "A response is accepted exactly if it has a status line of version 1.0 or 1.1 with a code of three characters and a space, and header lines with a colon up to a blank line, with no transfer encoding but chunked, sizes that are numbers below 2^64, and not both. The content is in chunks exactly if there is such a header, has the size of the content length, goes to the end of the connection if it is closed and there is no other way, and there is none for HEAD. The code is below 1000, and the response is ready to be read. Everything else is a read or format error. All sizes given agree, and a size of zero means no content.", "quantifier": "all streams of bytes, verbs and sizes of the line buffer", "why_tests_cant": "Tests have some literal responses; header names, white space, letter case, zero bytes and orders can vary without limit.", "anchors": ["src/common/io/http/response.c:httpResponseStatusRead", "src/common/io/http/response.c:httpResponseHeaderRead", "src/common/io/http/response.c:httpResponseNew", "src/common/convert.c:cvtZToUInt64"]}
{"id": "C78", "title": "Text in HTTP requests means what was put into it", "statement": "Decoding an escaped text gives it back for any bytes. Just the bytes that are not unreserved (nor a slash of a path) are escaped, each in the one upper case way, so that nothing written can end a line, path, key or value. Decoding accepts exactly texts whose escapes are numbers, else it is a format error. A query written and parsed again, with or without a question mark, has the same keys and values in the order of the keys, and the order in which they were added makes no difference. Parsing accepts exactly pairs with one equal sign each and different keys. Redacted values have no influence on what is logged. Adding an existing key is an error, merging appends all or is an error, and a value put is the one found. A date written is read as the same time, and a date read is a time or an error.", "quantifier": "all byte strings, queries, sets of redacted keys, and dates from 1970 to 2037", "why_tests_cant": "Tests have a few literal texts; any bytes of object names, versions, markers and credentials are put into paths and queries, and a signature over a different text is refused by the server.", "anchors": ["src/common/io/http/common.c:httpUriEncode", "src/common/io/http/common.c:httpUriDecode", "src/common/io/http/common.c:httpDateToTime", "src/common/io/http/common.c:httpDateFromTime", "src/common/io/http/query.c:httpQueryNewStr", "src/common/io/http/query.c:httpQueryAdd", "src/common/io/http/query.c:httpQueryPut", "src/common/io/http/query.c:httpQueryGet", "src/common/io/http/query.c:httpQueryMerge", "src/common/io/http/query.c:httpQueryRender"]}
{"id": "C79", "title": "The recovery settings of a restore are those of its options", "statement": "The settings generated are exactly the wanted ones, each once: those that follow from type, target, exclusive, action, timeline, archive mode and the command line of archive-get, and for every other name the option of the user with dashes read as underscores (the last one if it is given in more than one way). restore_command is generated exactly if the user gives none. No timeline 'current' is written before PostgreSQL 12, and from 12 on it is written for an immediate target. The only error is archive mode before PostgreSQL 12.", "quantifier": "all options, all versions of PostgreSQL, any number of recovery options with any names and values", "why_tests_cant": "Tests have a few combinations; the types, versions, optional options and names given by users in either spelling combine freely and override each other.", "anchors": ["src/command/restore/config.c.inc:restoreRecoveryOption", "src/common/type/keyValue.c:kvPut", "src/common/type/string.c:strReplaceChr"]}
{"id": "C80", "title": "Recovery settings are written so that PostgreSQL reads them and old targets do not interfere", "statement": "If recovery is preserved nothing is written. Before PostgreSQL 12 just recovery.conf is written, if there is recovery. From 12 on just postgresql.auto.conf is written, with exactly one of the two signal files if there is recovery and none otherwise. It has the old lines in order, those that set a target commented out and all others unchanged, then a blank line, and a line for each setting. Every line that sets a target in the new file is one of the new settings. All errors are known, and standby_mode is one of them from 12 on. PostgreSQL reads each value as it was given. No target of the old file is left.", "quantifier": "all options, versions, labels and contents of the old file", "why_tests_cant": "Tests have a few files; old files can have any lines, white space at any place, and no line feed at the end, and values can have any characters.", "anchors": ["src/command/restore/config.c.inc:restoreRecoveryConf", "src/command/restore/config.c.inc:restoreRecoveryWriteConf", "src/command/restore/config.c.inc:restoreRecoveryWriteAutoConf", "src/command/restore/config.c.inc:restoreRecoveryWrite"]}
{"id": "C81", "title": "Creating and upgrading a stanza is safe to repeat and never loses history", "statement": "Create succeeds exactly in a blank repository or where both infos match each other and the cluster. Afterwards all four files are there and valid, no file was overwritten, a missing file is a copy of the other one, and a second create does nothing. Upgrade succeeds exactly if both infos load and their new ids match; each then has the same history with the cluster on top and is otherwise unchanged, and a second upgrade does nothing. Killed at any point, running either command again gives what it gives without the kill. Repositories are done in order up to the first that fails, and those after it are unchanged.", "quantifier": "all contents of the info files (missing, damaged or any history), all clusters, all points of a kill, any number of repositories", "why_tests_cant": "Tests have a few states of the four files and do not kill the command between two writes.", "anchors": ["src/command/stanza/create.c:cmdStanzaCreate", "src/command/stanza/upgrade.c:cmdStanzaUpgrade", "src/command/check/common.c:checkStanzaInfo", "src/command/check/common.c:checkStanzaInfoPg", "src/info/infoPg.c:infoPgSet"]}
{"id": "C82", "title": "Stop and start act on exactly the stanza named, and stop with force signals exactly its processes", "statement": "A command may run exactly if there is no stop file for its stanza or for all. A stop blocks its stanza (or all), changes nothing for others, and start undoes it. With force each process that holds a lock of the stanza is signalled once and no other process is. Two commands want a lock file in common exactly if they are of the same stanza and have a lock type and a repository in common.", "quantifier": "all names of stanzas, all contents of the lock path, all states of the lock files", "why_tests_cant": "Tests have one or two stanzas with simple names; names with dashes, where one is the start of the other, do not occur.", "anchors": ["src/command/control/stop.c:cmdStop", "src/command/control/start.c:cmdStart", "src/command/control/common.c:lockStopTest", "src/command/control/common.c:lockStopFileName", "src/command/lock.c:cmdLockFileName", "src/command/lock.c:cmdLockList"]}
{"id": "C83", "title": "Deleting a stanza is allowed just when stopped, removes the info files first, and can be completed after a kill", "statement": "Content is deleted exactly if there is a stop file for the stanza and PostgreSQL is not running or force is given; empty directories are always deleted. Afterwards both directories and the stop file are gone. Killed at any point, nothing but info files is gone while there is an info file in either directory, the stop file stays until both directories are gone, and the next delete completes it.", "quantifier": "all contents of both directories in any order, all points of a kill, all combinations of stop file, running cluster and force", "why_tests_cant": "Tests do not kill the command and have a few contents.", "anchors": ["src/command/stanza/delete.c:cmdStanzaDelete", "src/command/control/common.c:lockStopFileName"]}
{"id": "C84", "title": "The command line of another process passes on the options as they are", "statement": "For each option and index exactly what is wanted is passed, in order: the replacement if there is one (nothing if it is null), else the value set here if it is not a default, negation and reset included, and for a process on the same host just what came from the command line. Nothing is passed of an option that is secure, not valid for the other command, or the cipher type. Read by the parser each argument is the name and value meant, and quoted and read by a shell the arguments are the same.", "quantifier": "all options with any names, sources and values, all replacements", "why_tests_cant": "Tests have a few options with simple values.", "anchors": ["src/config/exec.c:cfgExecParam", "src/protocol/helper.c:protocolRemoteParamSsh", "src/config/parse.c:cfgParseOption"]}
{"id": "C85", "title": "Ranges of several files are read as one stream, exactly and in order", "statement": "When ranges of files are added to a multi read and then read, the bytes read are exactly the bytes of the files in those ranges, one range after another in the order added, and at the end all of them. It does not matter how large the buffers are, which ranges are joined into one read, how many bytes between ranges are read over, how many files are opened ahead and whether a storage notices the end of a file at once. The end is always reached. Ranges of one file that overlap, go back or follow a range without limit are refused, and nothing else but a missing file is an error.", "quantifier": "all files and contents, all lists of ranges, all gaps read over, all prefetch sizes, all sequences of buffer sizes and end of file reports", "why_tests_cant": "Tests use a few ranges, gaps and buffer sizes; the state depends on how reads cut the ranges.", "anchors": ["src/storage/readMulti.c:storageReadMultiDefaultAdd", "src/storage/readMulti.c:storageReadMultiDefaultQueue", "src/storage/readMulti.c:storageReadMultiDefault", "src/storage/readMulti.c:storageReadMultiDefaultOpen"]}
{"id": "C86", "title": "A read that is retried gives each byte of the range once", "statement": "However often and wherever reads of a file fail, with bytes of the failed read in the buffer or not, the bytes added to the buffers are exactly the bytes of the range asked for, in order, with none lost and none given twice. What was in a buffer stays, no more is added than there is room, and the count is right. A read is tried three times if the storage retries and else once; it succeeds just if one of these tries does after failures other than a missing file, and the error is that of the last try, of the missing file or of opening the file again.", "quantifier": "all contents, offsets and limits, all sequences of buffers, all sequences of failures with any part of the bytes read before them", "why_tests_cant": "Tests fail a read at one or two places; offsets and limits after a retry depend on all that was read before.", "anchors": ["src/storage/read.c:storageRead", "src/storage/read.c:storageReadNew", "src/storage/read.c:storageReadOpen"]}
{"id": "C87", "title": "Annotating a backup changes its annotations and nothing else", "statement": "The annotate command gives the backup with the label its new annotations: new values replace old ones, empty values remove them, all others stay, and no empty list is left. Everything else of backup.info stays as it is, in each repository where the backup is found, and each backup.info is saved to the repository that it came from with its key. It fails without changes if the label is none, a backup.info can not be loaded or no repository has the backup.", "quantifier": "all repositories, backups, labels, old and new annotations", "why_tests_cant": "Tests annotate with a single repository.", "anchors": ["src/command/annotate/annotate.c:cmdAnnotate", "src/info/infoBackup.c:infoBackupDataAnnotationSet", "src/common/type/keyValue.c:kvPut", "src/storage/helper.c:storageRepoWrite"]}
{"id": "C88", "title": "The primary that is found is the only one, and the standby is the first", "statement": "dbGet gives the cluster that is not in recovery as the primary and the first that is as the standby, among those that can be connected to, and no standby if just the primary is asked for. It fails just if there are two primaries, a primary is required and there is none, or a standby is required and there is none.", "quantifier": "all lists of clusters, reachable or not, primary or standby, and all flags", "why_tests_cant": "Tests use a few configurations with at most three clusters.", "anchors": ["src/db/helper.c:dbGet"]}
{"id": "C89", "title": "Paths given to the repository commands stay in the repository", "statement": "The path that repo-get, repo-ls and repo-rm use leads where the path given leads: an absolute path as it is, a relative one from the repository. A path is refused just if it has two slashes in a row or is absolute and not that of the repository or of something below it. A slash at the end makes no difference. The path used never leads out of the repository.", "quantifier": "all repository paths and all paths given", "why_tests_cant": "Tests use a few paths, none with dots.", "anchors": ["src/command/repo/common.c:repoPathIsValid", "src/common/type/string.c:strPath", "src/storage/storage.c:storagePath", "src/command/repo/rm.c:cmdStorageRemove"]}
