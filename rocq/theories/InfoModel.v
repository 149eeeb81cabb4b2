(** Info files.  Models src/info/info.c and the two copies of src/info/infoArchive.c and src/info/infoBackup.c.

    The SHA-1 of a text in hexadecimal is the argument [sha].  Simplifications: encryption is left out (a file that cannot be decrypted is one
    that cannot be loaded); the cipher spec is the passphrase, None when there is no cipher. *)
From Verif Require Import Base Str JsonModel IniModel.
Open Scope Z_scope.

(** info.c:117-120, info.h INFO_KEY_FORMAT, INFO_KEY_VERSION *)
Definition sBackrest : str := [98;97;99;107;114;101;115;116].
Definition sCipher : str := [99;105;112;104;101;114].
Definition kChecksum : str := sBackrest ++ [45;99;104;101;99;107;115;117;109].
Definition kFormat : str := sBackrest ++ [45;102;111;114;109;97;116].
Definition kVersion : str := sBackrest ++ [45;118;101;114;115;105;111;110].
Definition kCipherPass : str := sCipher ++ [45;112;97;115;115].
(** version.h REPOSITORY_FORMAT *)
Definition REPOSITORY_FORMAT : Z := 5.

(** * Checksum text, info.c:38-93 *)
Definition sumSection (section : str) : str := 34 :: section ++ [34;58;123].
Definition sumSectionNext : str := [125;44].
Definition sumKeyValue (key value : str) : str := jsonQuote key ++ 58 :: value.
Definition sumEnd : str := [125;125].
(** info.c:163-177 and 309-333: text for one more key, given the last section ([] if none). *)
Definition sumAdd (sectionLast section key value : str) : str :=
  (if match sectionLast with [] => true | _ => false end || negb (strEqb section sectionLast)
   then (match sectionLast with [] => [] | _ => sumSectionNext end) ++ sumSection section
   else [44]) ++ sumKeyValue key value.

(** * Load *)

(** variant.c varUInt64() and varStr(): in a production build the type is not checked. *)
Definition varUInt64 (v : jvar) : res Z := match v with JUInt z => Ok z | _ => UB end.
Definition varStr (v : jvar) : res (option str) := match v with JStr s => Ok (Some s) | JNull => Ok None | _ => UB end.

Section Load.
  Variable D : Type.
  (** callbackFunction(callbackData, section, key, jsonReadNew(value)) *)
  Variable cb : D -> str -> str -> str -> res D.
  Variable sha : str -> str.
  Variable bufSize : nat.

  Record infoLoadState := mkInfoLoad {
    ilLast : str; ilSum : str; ilExpected : option str; ilVersion : option str; ilCipher : option str; ilData : D }.
  (** info.c:162-228: one key and value *)
  Definition infoLoadValue (st : infoLoadState) (section key value : str) : res infoLoadState :=
    let st :=
      if strEqb section sBackrest && strEqb key kChecksum then st
      else mkInfoLoad section (ilSum st ++ sumAdd (ilLast st) section key value) (ilExpected st) (ilVersion st) (ilCipher st) (ilData st) in
    if strEqb section sBackrest then
      if strEqb key kFormat then
        let* v := jsonToVar value in
        let* f := varUInt64 v in
        if f =? REPOSITORY_FORMAT then Ok st else Err EFormat
      else if strEqb key kVersion then
        let* v := jsonToVar value in
        let* x := varStr v in
        Ok (mkInfoLoad (ilLast st) (ilSum st) (ilExpected st) x (ilCipher st) (ilData st))
      else if strEqb key kChecksum then
        let* v := jsonToVar value in
        let* x := varStr v in
        Ok (mkInfoLoad (ilLast st) (ilSum st) x (ilVersion st) (ilCipher st) (ilData st))
      else Ok st
    else if strEqb section sCipher then
      if strEqb key kCipherPass then
        let* v := jsonToVar value in
        let* x := varStr v in
        match x with
        | Some p => Ok (mkInfoLoad (ilLast st) (ilSum st) (ilExpected st) (ilVersion st) (Some p) (ilData st))
        | None => UB
        end
      else Ok st
    else
      let* d := cb (ilData st) section key value in
      Ok (mkInfoLoad (ilLast st) (ilSum st) (ilExpected st) (ilVersion st) (ilCipher st) d).
  (** info.c:152-235; [fuel] is more than the number of lines *)
  Fixpoint infoLoadLoop (fuel : nat) (st : infoLoadState) (section : str) (lines : list str) : res infoLoadState :=
    match fuel with
    | O => Err EOther
    | S f =>
        let* (kv, section, lines) := iniValueNext bufSize true section lines in
        match kv with
        | None => Ok st
        | Some (k, v) => let* st := infoLoadValue st section k v in infoLoadLoop f st section lines
        end
    end.
  (** info.c:122-266: version, passphrase and data *)
  Definition infoNewLoad (text : str) (d : D) : res (option str * option str * D) :=
    let lines := iniLines text in
    let* st := infoLoadLoop (S (length lines)) (mkInfoLoad [] [123] None None None d) [] lines in
    match ilExpected st with
    | None => Err EChecksum
    | Some e => if strEqb e (sha (ilSum st ++ sumEnd)) then Ok (ilVersion st, ilCipher st, ilData st) else Err EChecksum
    end.
End Load.

(** * Save *)

(** info.h InfoSave: what has been written, the text of the checksum and the last section ([] for NULL: sections are not empty) *)
Record infoSaveState := mkInfoSave { isText : str; isSum : str; isLast : str }.
(** info.c:269-285 *)
Definition infoSaveSection (st : infoSaveState) (section : str) (sectionNext : option str) : bool :=
  (match isLast st with [] => true | l => strLtb l section end) && match sectionNext with None => true | Some n => strLtb section n end.
(** info.c:288-340 *)
Definition infoSaveValue (st : infoSaveState) (section key value : str) : infoSaveState :=
  let new := match isLast st with [] => true | _ => false end || negb (strEqb (isLast st) section) in
  mkInfoSave
    (isText st ++ (if new then (match isLast st with [] => [] | _ => [10] end) ++ 91 :: section ++ [93;10] else [])
      ++ key ++ 61 :: value ++ [10])
    (isSum st ++ sumAdd (isLast st) section key value)
    (if new then section else isLast st).
(** The callbacks of infoSave() (infoPg.c infoPgSaveCallback, infoBackup.c infoBackupSaveCallback, manifest/serialize.c.inc
    manifestSaveCallback): for each section in turn, if (infoSaveSection()) infoSaveValue() for each key. *)
Definition infoSaveCallback (data : list (str * list (str * str))) (sectionNext : option str) (st : infoSaveState) : infoSaveState :=
  fold_left (fun st (p : str * list (str * str)) =>
               if infoSaveSection st (fst p) sectionNext
               then fold_left (fun st (q : str * str) => infoSaveValue st (fst p) (fst q) (snd q)) (snd p) st else st) data st.
(** info.c:343-403; [version] is PROJECT_VERSION.  cvtUIntToZ(5) is the character 5. *)
Definition infoSave (sha : str -> str) (version : str) (cipher : option str) (data : list (str * list (str * str))) : str :=
  let st := mkInfoSave [] [123] [] in
  let st := infoSaveCallback data (Some sBackrest) st in
  let st := infoSaveValue st sBackrest kFormat [53] in
  let st := infoSaveValue st sBackrest kVersion (jsonQuote version) in
  let st := match cipher with
            | None => st
            | Some p => infoSaveValue (infoSaveCallback data (Some sCipher) st) sCipher kCipherPass (jsonQuote p)
            end in
  let st := infoSaveCallback data None st in
  isText st ++ 10 :: 91 :: sBackrest ++ [93;10] ++ kChecksum ++ 61 :: jsonQuote (sha (isSum st ++ sumEnd)) ++ [10].

(** * Two copies *)

(** info.c:462-481: the error so far and a new one *)
Definition loadErrorMerge (old : option errkind) (new : errkind) : errkind :=
  match old with
  | None => new
  | Some EFileMissing => new
  | Some o =>
      match new with
      | EFileMissing => o
      | _ => if match o, new with
                | EAssert, EAssert | EFormat, EFormat | EOptionInvalidValue, EOptionInvalidValue | EBackupSetInvalid, EBackupSetInvalid
                | EArchiveDuplicate, EArchiveDuplicate | EArchiveMismatch, EArchiveMismatch | EFileOpen, EFileOpen | EFileRead, EFileRead
                | EFileWrite, EFileWrite | EChecksum, EChecksum | EClock, EClock | ECommand, ECommand | ERepoInvalid, ERepoInvalid
                | EPgRunning, EPgRunning | EPathNotEmpty, EPathNotEmpty | ECrypto, ECrypto | EArchiveTimeout, EArchiveTimeout
                | EOther, EOther | EJsonFormat, EJsonFormat => true
                | _, _ => false
                end then o else EFileOpen
      end
  end.
(** info.c:431-500 with the callbacks of infoArchive.c:215-251 and infoBackup.c: [tries] are the attempts (the file and its copy), after which
    the callback returns false. *)
Fixpoint infoLoad {A} (error : option errkind) (tries : list (res A)) : res A :=
  match tries with
  | [] => match error with Some e => Err e | None => Err EAssert end
  | Ok a :: _ => Ok a
  | Err e :: r => infoLoad (Some (loadErrorMerge error e)) r
  | UB :: _ => UB
  end.
(** infoArchive.c:253-301: a missing file is FileMissingError (storageNewRead) *)
Definition infoFileLoad {A} (parse : str -> res A) (main copy : option str) : res A :=
  let load f := match f with None => Err EFileMissing | Some t => parse t end in
  infoLoad None [load main; load copy].
(** infoArchive.c:303-335: the states of the file and its copy during a save, each put being one step (storage/posix: write to a temporary
    file and rename) *)
Definition infoFileSave (text : str) (main copy : option str) : list (option str * option str) :=
  [(main, copy); (Some text, copy); (Some text, Some text)].
