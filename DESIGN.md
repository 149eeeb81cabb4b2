# Formal model of pgBackRest in Rocq (Coq 8.16.1)

## Layout

All Coq sources are in `rocq/theories`, logical root `Verif`.  For a code area `X`:

* `XModel.v`  – the model: total Gallina functions, each with a comment citing the file and lines in `/repo` it models and the
  simplifications made.  No proofs.
* `XSpec.v`   – a small specification written without the model's helpers (where the theorem statement needs vocabulary).
* `XProof.v`  – the lemmas.
* `XProps.v`  – the property theorems (`exact` of a lemma), `Print Assumptions`, and `Example`s which show that concrete,
  non-trivial inputs satisfy the hypotheses.

## Modelling conventions

* Bytes and characters are `N` (< 256 stated as a hypothesis or in a predicate) or `Z`; unsigned integers are `N`/`Z`, with
  explicit `mod 2^64` wherever the C code can wrap and the property is about it.
* C errors (`THROW`) are explicit results (`Err kind`), undefined behaviour is a separate outcome.
* Storage is a finite map/association list of path to content.  A crash is "some prefix of the storage operations was done".
* Cryptographic hashes and page checksum functions are section variables; "no collision among the blocks involved" is an
  explicit hypothesis where it is needed.  Compression and encryption are not modelled (assumed identity on content).
* Memory management, logging, statistics and the remote protocol transport are not modelled.

## Plan per property

| property | model | proof |
|---|---|---|
| C01-C04 | `encode.c` encoders, validators, decoders over byte lists; table lookups with explicit out-of-range outcome | induction on the input in steps of 3/4 (2) bytes; C04 is expected to be refuted for signed char |
| C05-C07 | `convert.c` varint loops, `convert.h` zig-zag with 64-bit wrap | strong induction on the value; C06 expected to be refuted for the tenth byte |
| C08 | `stringId.c` bit packing | arithmetic induction on the string |
| C09-C10 | `pack.c` tag writer and reader with tag stack | induction over the field tree; skip of containers expected to be refuted |
| C11-C13 | `interface.c` LSN functions, `archive/common.c` segment functions, numeric model plus hex text | arithmetic (division/modulo), induction on length |
| C14-C23 | `expire.c` passes over an ordered backup list; `infoBackup.c` | invariants by induction over passes; refinement to set-level specifications; crash = prefix of operation trace |
| C24 | `label.c.inc` over sets of labels | order reasoning on a fixed-width date text |
| C25-C27 | `blockMap.c`, `blockIncr.c`, `blockDelta.c`, `blockChecksum.c` | codec round trip by invariant; backup chain invariant; content reconstruction by induction over the chain |
| C28 | `timeline.c` | decision procedure equivalence with path relation |
| C29-C33 | `push/file.c`, `push/push.c`, `archive/common.c`, `get/get.c` over multi-repository state | case analysis per repository, induction over repositories and schedules |
| C34 | `lock.c` as a transition system over inodes and directory entry | counterexample trace for the full claim, invariant for the partial one |
| C35-C37 | `parallel.c`, backup and restore job callbacks | invariants over all schedules |
| C38-C39 | `manifest.c` incremental build | invariant over backup histories |
| C40 | `info.c` load/save pair | case analysis on crash prefix |
| C41-C45 | the named functions | equivalence with the specification |

## Trusted base

* Coq's kernel (8.16.1, `coqc`; `vm_compute` is used in `Example`s only).
* Every property theorem is followed by `Print Assumptions`; for all of them it prints "Closed under the global context": no
  axioms, not even of the standard library.  Where the build check lists names from `Coq.ssr.ssrunder.Under_rel`, those are parameters
  of a module type inside the standard library that is loaded with `ssreflect`-aware libraries; no theorem uses them.
* External functions (hashes, compression, encryption, `mktime`, other processes) are arguments of the model functions or section
  variables that become arguments; what is assumed about them is a hypothesis visible in the theorem.
* The reading of the C code by hand: the model is not extracted from the source.  Every definition cites file and lines.
* The seeded edits in `seeded/LOG.jsonl` record which theorems fail when the model is broken in a realistic way.

## What is modelled

| files in the model | code | not modelled there |
|---|---|---|
| `EncodeModel` | `common/encode.c`: base64, base64url, hex encode, decode, validate | base64url has no decoder in the code |
| `ConvertModel` | `convert.c`/`.h` varint-128 to and from buffer, zig-zag | |
| `NumModel` | `convert.c` integer to text and back, on top of a model of `strtoll`, `strtoull`, `printf` | locales, floating point |
| `StringIdModel` | `type/stringId.c` | |
| `LsnModel` | LSN and WAL segment functions of `postgres/interface.c`, `archive/common.c` | |
| `TimeModel` | `common/time.c` dates, `convert.c` time text | local time (`mktime`), time zone database |
| `PackModel` | `type/pack.c` writer and reader | debug display, memory contexts |
| `ExpireModel` | `expire/expire.c` backup retention (full, diff, time, adhoc), `infoBackup.c` backup list and reconstruction | logging, dry run output |
| `WalExpireModel` | `expire/expire.c` WAL expiry | |
| `HistExpireModel` | `expire/expire.c` history manifest expiry | |
| `SpoolModel` | `archive/common.c` status files, `push.c` ready and process lists, `strLstMergeAnti` | the file system's own failures |
| `PushModel` | `push/file.c`, `push/push.c` check and drop, `find.c` | compression, encryption of the copied file, retry timing |
| `ParallelModel` | `protocol/parallel.c`, `parallelJob.c` over all schedules | the wire protocol |
| `BlockMapModel` | `backup/blockMap.c` | |
| `BlockIncrModel` | `backup/blockIncr.c`, `restore/blockChecksum.c`, `filter/size.c` | compression and encryption are arguments |
| `RestoreFileModel` | `restore/blockDelta.c`, `restoreFile` of `restore/file.c.inc` | modes, owners, failing system calls, several files per job |
| `GetModel` | `get/get.c`, `get/file.c`: find, check, queue, asynchronous process, wait loop | the repository path of the copied file, temporary spool files, storage errors in the loop |
| `LabelModel` | `backup/label.c.inc`, `backup/common.c` label format and expressions | `strftime` (argument), the wait for the end of the second |
| `TimelineModel` | `restore/timeline.c`, its call in `restore.c` | reading and decrypting the history file (argument), ASSERTs on zero values |
| `LockModel` | `common/lock.c` acquire, read, write, release of one lock file, one step per system call, any number of processes and deaths | JSON of the lock file, creation of the lock path, other `open()` errors |
| `Str` | `strCmp`, `strSubN`, list sort and search | |
| `PageModel` | `postgres/interface/page.c`, `backup/pageChecksum.c`, the page result part of `backup/process.c.inc` | little endian, 64 bit; the pack of the result is its fields; re-reads of a page are an argument |
| `ArchiveIdModel` | `info/infoPg.c` history set, load, save and archive id, `infoArchiveIdHistoryMatch`, version text of `postgres/interface.c` | JSON and ini text of the file; catalog and control version |
| `JsonModel` | `common/type/json.c` reader and writer | ASSERTs (as in a production build), jsonWriteJson, StringId variants, depth of the C stack |
| `IniModel`, `InfoModel` | `common/ini.c`, lines of `common/io/read.c`, `strTrim`, `info/info.c` load, save and checksum text, the two copies of `infoArchive.c` and `infoBackup.c` | SHA-1 is a parameter; encryption; zero bytes; line numbers; callbacks of the info files (a parameter) |
| `JobModel` | `command/backup/process.c.inc` 351-765 and `command/restore/process.c.inc` 7-158, 344-504: queues, comparators, job generators | The parameters of a job other than its key and files; qsort() is a sort by the comparator (unique by C36_sort_unique and C37_sort_unique); sums of sizes do not wrap around |
| `IncrModel` | `manifestBuildValidate`, `manifestDeltaCheck`, `manifestBuildIncr`, `manifestBackupLabelSet` (info/manifest/manifest.c), `backupFile` (command/backup/file.c.inc), `backupJobResult`, file removal of `backupProcess` (process.c.inc), `backupFileRepoPath` (common.c) | page checksum results, owners, modes and logging; hard links, path syncs; the choice of the prior backup (any backup of the history); filters are a parameter; a job is one step, its parameters are those of the manifest when queues were built; failing system calls |
| `ResumeModel` | `backupResumeClean`, `backupResumeFind` (command/backup/resume.c.inc), `compressTypeFromName`, `compressExtStrip` (common/compress/helper.c) | the tree of the backup path is given (storage lists); which backup is the newest; page checksum results, logging, failing system calls |
| `ManifestPackModel` | `manifestFilePack`, `manifestFileUnpack`, `manifestFileAdd`, `manifestFileUpdateByIdx`, `manifestOwnerCache`, `manifestBackupLabelSet` (info/manifest/store.c.inc, manifest.c) | a StringPub is 16 cells of which the first holds the size; the 512 bytes of the work buffer are not counted; lookups by name |
| `ManifestModel` | `manifestSave`, `manifestSaveCallback`, `manifestLoadCallback`, `manifestNewLoad` (info/manifest/serialize.c.inc, manifest.c) | `pgControlVersion` and the hash are arguments; `manifestLoadFile` and `manifestValidate` are not modelled; StringIds are their texts; the backup type is a text |
| `IoGroupModel` | `src/common/io/filter/{group,filter,buffer}.c`: opening and processing of filter groups; `src/common/io/read.c`: ioRead, ioReadSmall, ioReadLineParam; `src/common/io/write.c`: ioWrite, ioWriteClose | drivers of filters and of reads and writes are any functions within the stated contract; results and parameters of filters, ioReadVarIntU64, ioReadReady, seek and flush of writes, ASSERT()s; errors thrown by drivers |
| `LinkCheckModel` | `manifestLinkCheck`, `manifestLinkCheckOne`, `manifestTargetPath`, `manifestPathPg`, `strPathAbsolute`, `strPath`, `strBase`, splitting and joining at slashes | the sort of the link list is insertion sort and its binary search a linear one; error messages |
| `CleanModel` | command/restore/clean.c.inc (ownership, mode, cleaning of directories, restoreCleanBuild) with the posix calls it uses: path resolution, info, list, unlink, lchown, chmod, mkdir with parents, recursive removal | file content is a number; reading calls do not fail; no umask and no permission checks by the system, a call that changes something fails as an oracle says; no other process changes files; log messages; path remove is one call that may be done in part |
| `RemapModel` | command/restore/remap.c.inc; manifestTargetUpdate/LinkUpdate/LinkAdd/TargetAdd/LinkRemove/TargetRemove of info/manifest/store.c.inc | log messages; the ASSERT() in manifestTargetUpdate(); options not set are empty maps |
| `RegModel`, `RegNameModel` | `common/regExp.c`, the part of `regcomp()`/`regexec()` it relies on, `walIsSegment()`, `walIsPartial()`, `backupRegExp()` and the expressions for names in `archive/common.h` and `find.c` | character order is that of the codes; constructs POSIX leaves undefined, character classes, back references and intervals above 255 are `UB` in the model |
| `ItrModel` | `storage/iterator.c` (all four functions), `storageList` of `storage/storage.c`, the use of the prefix of an expression by the object stores | the driver is a function of the path for the time of an iteration; of an entry there are name, whether it is a path and the rest as one value; a prefix with `/` in it is taken as a prefix of names in one path |
| `SelectModel` | `restoreSelectiveExpression`, `restoreFileZeroed`, `restoreZeroExp` as in `cmdRestore`, `pgTablespaceId`, `pgDbIsSystem`, `pgDbIsSystemId` | logging; what restoring zeroes does with the file |
| `SetModel` | `restoreBackupSet` | logging; loading of backup.info is data (C40, C52); mktime() is an argument |
| `UnloggedModel` | `src/info/manifest/manifest.c` RELATION_EXP, DB_PATH_EXP and the loop of manifestNewBuild() that removes unlogged relations | names only; DEBUG_MEM check of memory use left out |
| `BuildModel` | `src/info/manifest/build.c.inc` manifestBuildInfo() and its helpers; `src/info/manifest/manifest.c` manifestNewBuild() up to the sort | storage is three functions on absolute paths (list, info, info through links) with no errors other than a missing link destination; log messages, memory contexts and the check for an empty data directory left out |
| `VerifyModel` | verify/verify.c (ranges, callback, manifests, jobs, results, start lists), verify/file.c | storage does not change during the command; log, report text and loading of info files left out; jobs of other processes are taken in any order |
| `ListModel` | src/common/type/list.c (lstNew, lstClear, lstGet, lstGetLast, lstFind, lstFindIdx, lstExists, lstInsert, lstAdd, lstRemoveIdx, lstRemove, lstRemoveLast, lstSort, lstComparatorSet, the comparators) | memory is cells of one item; qsort() is an argument that is only known to sort; bsearch() is the one of glibc; memory contexts and lstMove are left out |
| `OptNameModel` `OptTableModel` | config/parse.c 405-430, 571-803, 1363-1388 and the tables of parse.auto.c.inc (commands, groups, 199 options, 39 deprecated names; generated) | messages; that the option is unindexed and valid is checked here, the rest of the configuration in other files |
| `OptLoadModel` | config/parse.c 325-371, 454-472, 1735-2260 (phases 1 to 3 of cfgParse), the store of common/ini.c | cfgFileLoad (the lines of the files are an argument), the tables of valid commands and roles (arguments), warnings, lock and log settings |
| `OptGroupModel` | config/parse.c cfgParse() phases 4 and 6: valid options, used keys, the map from index to key, removing indexes with only defaults, the default index | which indexes have only defaults (phase 5) and the values are arguments |
| `OptSizeModel` | config/common.c cfgParseSizeQualifier(), cfgParseSize(), cfgParseTime(); convert.c cvtZSubNToInt64Base() | the regular expression is its language, matched by trying the alternatives; tolower() is that of the C locale |
| `OptValueModel`, `OptRuleTableModel` | phase 5 of `cfgParse()` (`src/config/parse.c:2385-2838`), `cfgParseOptionalRule()`, `cfgParseOptionalFilterDepend()`, `parseOptionBeta()`; the optional rules, commands, roles and order of resolution of all 199 options, generated from `src/config/parse.auto.c.inc` | rules are decoded from their packs; values in rules are texts and not indexes; messages, warnings and the default shown by help are left out; CFGOPTDEF_CONFIG_PATH is its default |
| `WaitModel` | src/common/wait.c | The clock is an input at each call; sleeping is the time in the result |
| `FindModel` | src/command/archive/find.c, backupArchiveCheckCopy (src/command/backup/complete.c.inc), compressTypeFromName, compressTypePresent | The directory and the clock are inputs at each step; the filters of a copy are a list, compression and encryption are functions; the size in the repository is not modelled; messages |
| `HttpModel` | `io/http/response.c`: httpResponseRead, httpResponseStatusRead, httpResponseHeaderRead, httpResponseNew; `io/read.c` ioReadLine and ioRead on a stream | The session is the bytes sent until the connection is closed. Multipart content, the cache of the content, the store of the headers, `.ignoreUnexpectedEof` and the end of the session are left out. |
| `UriModel` | `common/io/http/common.c`: `httpDateToTime`, `httpDateFromTime`, `httpUriDecode`, `httpUriEncode`; `common/io/http/query.c` but for duplication and logging | NULL strings, `gmtime_r()` (its parts are arguments), `httpQueryNew()` parameters (the redact list is a function) |
| `RecoverModel` | `command/restore/config.c.inc`: all functions | `cfgExecParam()` (argument), logging, modes and owners of the files, zero bytes in options |
| `StanzaModel` | `command/stanza/create.c`, `command/stanza/upgrade.c`: all; `command/check/common.c`: `checkStanzaInfo`, `checkStanzaInfoPg` | `pgValidate()` and key generation (arguments), the text of the files (`InfoModel`, `ArchiveIdModel`), catalog versions, logging |
| `ControlModel` | `command/control/common.c`, `stop.c`, `start.c`: all; `command/lock.c`: `cmdLockFileName`, `cmdLockList` | what `lockRead()` finds (argument, see `LockModel`), errors of the file system, slashes in names, whether kill() succeeds |
| `DeleteModel` | `command/stanza/delete.c`: all, for posix storage | object stores (no directories), errors of the storage, logging |
| `ExecModel` | `config/exec.c`: all | the tables of options (any list of options), the display text of values (argument), zero bytes |
| `MultiModel` | `storage/readMulti.c`: the default driver (`storageReadMultiDefault*`) | retries of a failed read, when a missing file is noticed, target by time (versions are arguments), the multi read of the remote storage |
| `RetryModel` | `storage/read.c`: `storageRead()`, offset and limit of `storageReadNew()` | what a driver does in a try (any events), when the open is completed, filters, end of file, versions |
| `AnnotateModel` | `command/annotate/annotate.c`: all; `info/infoBackup.c`: `infoBackupDataAnnotationSet`; `kvPut`, `kvRemove` | reconstruction of backup.info at load, errors of a save, logging |
| `DbGetModel` | `dbGet` (db/helper.c) | connecting and asking for recovery (argument), warnings, closing unused connections |
| `RepoPathModel` | `repoPathIsValid` (command/repo/common.c), `strPath` (common/type/string.c), relative paths of `storagePath` (storage/storage.c) | expressions of `storagePath`; the check of `storagePath` on absolute paths |

Everything else in `/repo/src` is not modelled: configuration parsing, storage drivers, the network and TLS layers, the database
client, the build of manifests from a cluster, and the commands not listed.

## Findings

Claims that turned out false of the code.  Each has a theorem whose name ends in `_refuted` with a concrete witness, unless marked (read).

* `C02` base64 decoding ignores unused bits of the last character, so different texts decode to the same bytes.
* `C04` decode tables are indexed with a plain `char`: bytes from 0x80 read before the table where `char` is signed.
* `C06` the tenth varint byte may carry bits that are shifted out without an error.
* `C09` a null with an explicit id followed by a field with an implicit id: writer and reader disagree on the id.
* `C10` an unread container can not be skipped; beginning a container that is absent is not noticed; a null test of a later id discards
  the fields before it.
* `C11` the two parts of an LSN text may exceed 32 bits and then wrap.
* `C19` WAL expiry relies on later backups starting at later WAL.
* `C23` history expiry lists the default repository and deletes from the one acted on (`expire.c:960,987` against `978,1010`), and
  removes manifests of current backups of earlier years.
* `C25` an empty block map is written when a file with a prior map that is not bundled is truncated to zero while being copied
  (`blockIncr.c:236-238`; the ASSERT in `blockMap.c:280` is not in production builds).  Reading it fails with "unexpected eof", so the
  next incremental backups fail until a full one.
* Block map (read): references from 2^29 overflow; a truncated map's last checksum is accepted (short read); a huge block total loops.
* `C30` without pg-path, a broken first repository makes every other one mismatch.
* `C31` the lists are sorted with the extension but merged without it: a segment may be pushed again (harmless).
* `C32` archive-get compares `strSubN(file, 25, 40)` of "archive id/path/name" (`get.c:283`): an offset meant for the bare name.  Different
  checksums with a common prefix are not noticed, and equal ones under archive ids of different length ("12-9", "12-10") fail as duplicates.
* `C33` the ok file of a segment that leaves the get queue stays (`get.c:587` looks in the actual queue, not in the kept one).  With
  archive-missing-retry=n the segment is then reported missing when recovery asks for it again.
* `C45` `strLstMergeAnti` keeps duplicates of a matched element.
* `C47` `epochFromParts` overflows `int` from late 2038; the sign of a zone offset below an hour is lost; minutes of 60 and more are accepted.
* Regular expressions (read): `[0-F]` accepts `:;<=>?@`; dots before `partial` and `history` are not escaped.
* `C24` only the newest year directory of the backup history is read (`label.c.inc:41`), but the history manifest of a dependent backup lies in the
  year of its full backup (`complete.c.inc:207`).  After the clock went back, a differential or incremental backup of a set of an older year can
  get the label of an expired backup that is still in the history.
* `C28` `restore.c:74` verifies the target timeline with the start LSN of the backup only.  A backup that started before and stopped after the switch
  to the target timeline is accepted although it cannot become consistent there.
* `C34` lock files: `lockAcquire` does not check after `flock()` that the name still has the file it opened (`lock.c:191-206`), and `lockRelease`
  removes the name before closing.  A process that opened the file before the removal locks the removed file while another one creates and locks
  a new file (`C34_race_refuted`); its release then removes the other's file.  Sharing by exec id reads stale content between `flock()` and the
  first write after a death, and outlives the lock it was based on.  `lockRead` with remove (`stop --force`) removes the file of a running process.
* `C42` buffers of the page checksum filter must be whole pages.  With 32 KiB pages and `buffer-size=16KiB` (allowed by the option) the second buffer of
  every file ends the backup in an AssertError (`pageChecksum.c:72-73`, `C42_split_refuted`).
* `C49` `jsonReadSkipStr` (`json.c:790-849`) skips one character too many after `\uXXXX` and accepts only decimal digits there, so `jsonValidate`
  rejects `"\u0041"`; in a production build it also takes a comma for the opening quote (`,"` passes validation).  A text that ends in a
  backslash or a `\u` escape within a string is read past its terminating zero, there and in `jsonReadStr`.
* `C50` `jsonReadKeyExpect` compares only as many characters as the key in the text has (`json.c:635`), so a key that is a proper prefix of
  the field asked for (or empty) is taken for it.  With the keys pgBackRest writes today this cannot happen since the shorter key is always
  read first.
* A key of an info file that contains `=` followed by a number of 20 or more digits (a file of PostgreSQL named `x=99999999999999999999`) is written but cannot be read back: the validation of the text after the first `=` ends with FormatError, which `iniValueNext` does not retry (`C51_every_line_read_back_refuted`).
* A line of an info file that is longer than the buffer size (`buffer-size` may be set to 16KiB) cannot be read back: FileReadError.  The entry of a backup in backup.info grows with the number of backups it references.
* The section names are not escaped in the text of the checksum of an info file (`C52_quoted_section_refuted`).  The program writes fixed section names only, so this needs an edited file.
* `infoNewLoad` takes the format, version, checksum and passphrase with `varUInt64`/`varStr` without a check of the type in production builds, so that e.g. `backrest-version=1` makes it use a number as a pointer (UB in the model).
* **Block incremental name collision** (`C38_collision_refuted`): `backupFileRepoPath()` stores a block incremental file `X` as `X.pgbi` and, without compression, a whole file under its own name. A data directory with both `X` and `X.pgbi` therefore has two files stored at one path; one is lost. With compression names cannot collide (`C38_no_collision`).
* C53: a backup that was interrupted without bundling and is retried with `repo-bundle` enabled fails with a missing file error: `backupResumeFind` does not compare the option, and a resumed file that is small enough is put in a bundle job, which looks for it at `bundle/<id>` (`C53_bundle_refuted`). The same happens if `repo-block` is disabled for the retry: the `.pgbi` file is accepted, but the job looks for the file without the extension (`C53_block_refuted`). Every retry fails until the incomplete backup is removed by hand or `--no-resume` is given.
* `C54_base_time_refuted`: `manifestPackBaseTime` uses -1 for "not set". If the first file that is packed has the timestamp -1 (1969-12-31 23:59:59 UTC), the next packed file sets the base time again and the first file then reads back with a wrong timestamp (that of the second file).
* **C55** (`C55_time_before_1970_refuted`): the modification time of a file is written with `jsonWriteUInt64` and read with `jsonReadInt64`; a file last changed before 1970 makes a manifest that is saved but cannot be loaded. (`C55_user_at_refuted`): a user or group named "@" is replaced by the default owner on load.
* `ioReadSmall()` stops as soon as `ioReadEof()` is true, but `ioReadInternal()` sets `eofAll` while the bytes it has just put into the internal buffer are still there if the flush of a filter takes two steps (the `ioFilterGroupInputSame()` branch does not stop after getting data). The call then returns less than asked for although data is left (`C56_small_short_refuted`). The same holds for the loop `while (result == NULL && !ioReadEof())` of `iniValueNext()`, which can end before the last lines. It needs a last step of a filter (for instance decryption) that does not fit into the rest of the buffer.
* `ioReadLineParam()` with allowEof does not advance `outputPos` for a last line without a linefeed: another call returns the same line again (`C56_last_line_again_refuted`).
* `manifestLinkCheck` (C57) is weaker than its comment: two file links to the same file are accepted if another file link to that directory comes first (`C57_same_file_refuted`); a file link into a subdirectory of a linked directory is accepted (`C57_file_in_directory_refuted`); a linked directory that contains the data directory is accepted (`C57_contains_pgdata_refuted`), and a delta restore then removes what it finds there; absolute destinations with `..` are compared as text (`C57_not_normal_refuted`).
* `C58_control_link_refuted`: restore removes pg_control first so that PostgreSQL cannot start after an interrupted restore. If `global` is a link in the backup, the link is missing in the data directory and the directory it points to still holds an old pg_control, the link is created later and the old pg_control is visible again until the restore completes.
* `C58_link_owner_refuted`: the owner of a target is set with lchown(), so if the path of the target is a link the link gets the owner and the directory keeps a wrong one (the mode is set on the directory).
* `C58_dangling_parent_refuted`: storagePosixPathCreate() recurses without end if the parent of the path is a link to something that does not exist: mkdir() of the path fails with ENOENT, mkdir() of the parent with EEXIST which is ignored, and so on. Restore with a tablespace path below such a link runs into it.
* Restore remapping (C59): a key of tablespace-map is compared with names and with ids, so a tablespace named like the id of another one is moved together with it (the check of link destinations refuses the result later). `C59_one_tablespace_refuted`.
* Restore remapping (C59): link-map accepts a destination that ends with / for a file link; the file name is then empty. `C59_file_name_refuted`.
* `regExpPrefix()` gives a prefix that is not the start of all matches when the expression has an alternative without its own anchor (`^ab|cd`) or when the prefix ends with an optional character (`^ab*`, `^ab?`, `^ab{0,1}`): with S3, Azure and GCS `repo-ls --filter` then leaves out names that match (`C60_prefix_branches_refuted`, `C60_prefix_optional_refuted`). The expressions in the code itself meet the conditions of `C60_prefix`.
* The expressions for WAL segments use the range `[0-F]`, which also has `:;<=>?@` in it, and `[0-f]` for checksums; in the expression for a partial segment the dot of `.partial` stands for any character (`C60_hex_refuted`, `C60_find_partial`).
* `storageItrPathAdd` (`storage/iterator.c:66-69`) gives the expression to the driver for every path, but the expression is matched against the whole name below the path of the iterator. Object stores list only what begins with the prefix of the expression in each path (`s3/storage.c:773-788`), so with recursion entries are lost: `repo-ls --recurse --filter=^backup` gives `backup` but nothing in it on S3, and gives it on Posix storage. `C61_prefix_recurse_refuted` is the witness. Only `repo-ls` uses recursion with an expression.
* C62: including the same database twice (`--db-include=a --db-include=a`, or once by name and once by id) is refused with "database to include does not exist", since the first one removed it from the list (select.c.inc:337-359). The comment "Only user created databases can be zeroed, never system databases" (select.c.inc:383) does not hold: a system database that is excluded is zeroed. Before PostgreSQL 10 the dot of the tablespace directory (PG_9.6_...) is not escaped, so any character matches, and the ends of the expressions for PG_VERSION are not anchored.
* C63: without set and target, a repository whose latest backup is from before a stanza-upgrade stops the restore with an error although a repository after it may have a current backup (select.c.inc:175-187 throws where all other reasons go on with the next repository).
* `src/info/manifest/manifest.c` manifestNewBuild(): `lastRelationFileId` holds the id but not the path of the last relation, so a logged relation whose file id equals that of an unlogged relation just before it in another database is silently left out of the backup, e.g. pg_tblspc/1/PG_15_x/16384/16400 with its _init fork and then pg_tblspc/1/PG_15_x/16385/16400 (C64_clash_refuted; C64_exact shows this is the only case).
* `src/info/manifest/manifest.c` manifestNewBuild(): digits of a file name are copied into `relationFileId[21]` without a check of their number, so a file in a database directory named by more than 20 digits overflows the buffer (C64_overflow_refuted).
* `manifestBuildInfo()` (`src/info/manifest/build.c.inc:336-495`) stores a link to a special file, or to a file that is then left out (for example `postmaster.pid`), as a link to a file although no such file is in the manifest (C65_link_without_file_refuted).
* The expression for relation caches (`src/info/manifest/build.c.inc:250-255`) is not anchored, so that `pg_internal.init_old.1.sql` in a database path is left out of the backup like `pg_internal.init.123` (C65_cache_name_refuted).
* `C67_race_refuted`: `fileVerifyComplete` (verify.c:1838-1843) is set when the number of files *given out* equals that of the manifest, and not when their results are in. The callback for the next job runs before results are processed, so a later backup that refers to a file whose check is still out takes it as valid (verify.c:1038-1066). The backup is reported as valid although one of its files is corrupt. The error count of the command is not affected.
* `C67_bundle_refuted`: the name looked up in the invalid files of a prior backup is `<reference>/<name><ext>` (verify.c:1045-1049). Files in bundles are listed as `<label>/bundle/<id>` and block incremental files with `.pgbi`, so an invalid one is never found and the dependent backup is reported as valid.
* `C66_abort_refuted`: a corrupt header of the first WAL file of an archive id (pgWalFromFile throws) or a WAL file name accepted by `[0-f]{40}` that is not hex ends the whole verify command with an error, so no other file is verified.
* lstClear() frees pub.list, which is not the allocated pointer once lstRemoveIdx(0) has moved it up (list.c:63, 366); memFree() then fails or corrupts. No caller today clears a list after removing its first item (`C68_clear_refuted`). lstRemoveIdx() also accepts listIdx == lstSize() in its assert.
* `cfgParseOption` (config/parse.c:571-803) adds up the key in 32 bits with no check: `pg4294967297-path` is taken as `pg1-path` (`C69_key_refuted`).
* `cfgParseCommandId` (config/parse.c:405-430) compares only the length of what is given: `pgbackrest st` runs `stanza-create`, and an empty command name (or `:local`) is `annotate` (`C69_command_refuted`).
* `cfgParse` (config/parse.c:2021-2030) checks that a variable of the environment with the prefix PGBACKREST_ has a `=` only with ASSERT(), which is not in production builds: an entry without `=` (possible with execve) is a null pointer (`C70_env_refuted`).
* C71: the last check of phase 6 of cfgParse() (parse.c:2887-2892) means to give key 1 to a group that has only defaults left. It reads optionGroupIndexKeep[group][0], which is about the first index before any was removed. If the first index has only defaults (e.g. only repo1-s3-bucket is set without type s3) and one other is kept, say repo2, the values of repo2 stay under key 1: --repo=2 is an error and --repo=1 is repo2 (C71_key_refuted).
* C72: cfgParseTime() (common.c:174) copies the number of a time option to a buffer of 65 bytes on the stack. The only check of its size is an ASSERT(), which is not in production builds (convert.c:488, assert.h:52). A value with more than 64 characters before the unit, e.g. archive-timeout with many leading zeros, overflows the stack (C72_time_buffer_refuted).
* C72: cfgParseTime() checks only the upper limit before the number is multiplied. A large negative number, e.g. -9223372036854775807w, is signed overflow (C72_time_overflow_refuted).
* C73: `check --pg2-path=/x` without a stanza reads past the end of an array. pg-path depends on stanza for this command (`parse.auto.c.inc`). The dependency is not met, and to choose the message `parse.c:2473` reads `config->option[dependId].index[optionListIdx]` with the index of pg-path, although stanza is not in a group and has one value. It is the one dependency of this kind among the 199 options (C73_tables_dependency).
* C73: in a build without zst (or ssh2) an unknown compress-type (or repo-type) is reported as a FormatError of the rules and not as an invalid value. The loop for the hint (`parse.c:2758-2776`) reads all items of the list as U32, also the marks for values the program was built without, which are booleans.
* C73 (latent): `--reset-beta` counts as beta being given: `parseOptionBeta()` (`parse.c:376-398`) looks at indexListTotal and negate only. No option but beta itself is marked beta at this commit.
* **A duplicate WAL segment may not be seen (C75).** When a backup checks several segments, `walSegmentFind()` stops reading the sorted list of a directory at the first name that is no file of the segment, after one that is. A temporary file (`…-<sum>.gz.pgbackrest.tmp`) between two files of the same segment hides the second, so the backup passes though the segment is ambiguous (`C75_duplicate_refuted`).
* `httpResponseRead` reads a line after the data of each chunk and does not look at it. If a chunk is longer than its header says, the rest of it up to the next linefeed is dropped and reading goes on without an error (C76_dropped_refuted).
* `httpResponseHeaderRead` takes the last of several `content-length` headers although they differ (C77_sizes_refuted), and a `content-length` of 0 with `connection: close` or HTTP/1.0 is not kept: everything up to the end of the connection is content (C77_zero_refuted).
* `httpDateToTime()` (`src/common/io/http/common.c:22-49`) reads a date from the server at fixed places and does not check its length: with a `last-modified` header of fewer than 8 bytes it reads past the end of the text (`C78_date_short_refuted`). A year after 2037 overflows an int in `epochFromParts()` (`C78_date_year_refuted`).
* `httpUriDecode()` (`src/common/io/http/common.c:70-105`) accepts a plus sign in an escape: `%+5` is byte 5 (`C78_sign_refuted`).
* `restoreRecoveryConf()` (`src/command/restore/config.c.inc:179-207`) writes values between quotes without doubling quotes and backslashes in them: with `--target="o'clock"` PostgreSQL cannot read the file, and with a backslash it reads another value (`C80_value`, `C80_quote_refuted`).
* `restoreRecoveryWriteAutoConf()` (`src/command/restore/config.c.inc:269-293`) comments out old targets just in lower case and with an equal sign, but PostgreSQL takes names in any case and without the sign: such a target stays and interferes with the new one (`C80_old_refuted`).
* `stanza-create` that is killed after it wrote archive.info and before it wrote backup.info can not be completed: the next one fails with a missing backup.info, and the stanza has to be deleted first (`C81_create_cut_refuted`).
* `stanza-upgrade` that is killed between archive.info and archive.info.copy leaves the old copy for good: the next one finds archive.info current and does not write the copy, nor does `stanza-create`. If archive.info is damaged later, the old copy is loaded and does not match backup.info (`C81_copy_refuted`). The same holds for backup.info.
* `stop --stanza=a --force` selects lock files by the prefix `a-`, so it sends SIGTERM to processes of a stanza named `a-b` and removes their lock files although that stanza is not stopped. In the same way `--stanza=a-backup` hits the backup of stanza `a`, whose lock file is `a-backup-1.lock` (`C82_signal_refuted`).
* A stanza named `all` has the same stop file as all stanzas, so stopping it stops all (`C82_all_refuted`).
* `stanza-delete` that is killed before it removes the stop file, which is the last step, leaves it for good: the next one finds no directory and does nothing, and `stanza-create` then fails because of the stop file (`C83_stop_refuted`).
* Arguments for a process on another host (and `restore_command`) are quoted just if the value has a space, and quotes in it are not escaped. A value such as `a;b` is cut by the remote shell, and `a" --repo1-path=b "c` sets another option (`C84_shell_refuted`).
* `storageReadMultiDefaultAdd` joins a range with the one before if the name of the file is the same, and does not compare the versions: a range of another version of the file is read from the first version (`C85_versions_refuted`).  The callers give one version for a file.  A file that ends before the range does is no error in the multi read: the next range follows at once (`C85_short_refuted`), so the reader has to check the size.
* After a failed read `storageRead` opens the file again at the next byte without a check that it is the same file: an object that was replaced meanwhile (and is read without a version) gives the first part of the old and the rest of the new one, without an error (`C86_replaced_refuted`).
* **`annotate` without `--repo` and with more than one repository writes to the wrong repository.** `cmdAnnotate` loads `backup.info` of each repository but saves with `storageRepoWrite()`, which is the default (first) repository, and not `storageRepoIdxWrite(repoIdx)` (annotate.c:75). If a backup is found in repo2, `backup.info` of repo1 and its copy are replaced by those of repo2, encrypted with the key of repo2, and repo2 is not annotated; the command succeeds (`C87_repos_refuted`, `C87_lost_refuted`). The key for the backups of an encrypted repo1 is in its `backup.info` and is lost with it. `--repo` is optional for the command, and the tests have one repository.
* `C89` names of two dots are not looked at (`command/repo/common.c:25-67`): `repo-rm --recurse ../x` and `repo-get <repo path>/../x` pass the check for
  being in the repository and lead out of it (`C89_inside_refuted`).
