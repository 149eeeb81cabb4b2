(** The backup set to restore.  Models restoreBackupSet() (src/command/restore/select.c.inc:36-228).

    The repositories are those in the range of the loop, each with its index.  What loading backup.info gives is data: an error that is not caught
    (storageRepoIdx(), select.c.inc:97), no info since loading failed (100-114, the error is logged), or the info.  EBackupSetInvalid is
    BackupSetInvalidError.  Left out: logging.  mktime() is an argument. *)
From Verif Require Import Base Str LsnModel TimeModel.
Open Scope Z_scope.

(** infoBackup.h InfoBackupData and infoPg.h; only what is used here.  Backups are in the order of backup.info, by label. *)
Record sbackup := mkSbackup { sbLabel : str; sbPgId : Z; sbStop : Z; sbLsnStop : option str }.
Record sinfo := mkSinfo { siBackups : list sbackup; siCurrentPgId : Z; siCipher : option str }.
Definition srepo : Type := Z * res (option sinfo).

(** cfgOptType (select.c.inc:59) with the target option; types other than time and lsn are the same here *)
Inductive stype := STime (target : str) | SLsn (target : str) | SOther.
(** The target as used: select.c.inc:61-65 *)
Inductive starget := GTime (t : Z) | GLsn (l : Z) | GNone.
(** select.c.inc:67-91: with a requested set the target is not looked at *)
Definition restoreTarget (mktime : Z -> Z -> Z -> Z -> Z -> Z -> Z) (type : stype) : res starget :=
  match type with
  | STime s =>
    match cvtZToTime s with
    | Ok (TEpoch e) => Ok (GTime e)
    | Ok (TLocal y m d h mi se) => Ok (GTime (mktime y m d h mi se))
    | Err _ => Err EFormat
    | UB => UB
    end
  | SLsn s => let* l := lsnFromStr s in Ok (GLsn l)
  | SOther => Ok GNone
  end.

(** select.c.inc:134-164: from newest to oldest; the list is reversed *)
Fixpoint searchTarget (g : starget) (newestFirst : list sbackup) : res (option str) :=
  match newestFirst with
  | [] => Ok None
  | b :: r =>
    match g with
    | GTime t => if sbStop b <? t then Ok (Some (sbLabel b)) else searchTarget g r
    | GLsn l =>
      match sbLsnStop b with
      | None => Ok None
      | Some s => let* lsn := lsnFromStr s in if lsn <=? l then Ok (Some (sbLabel b)) else searchTarget g r
      end
    | GNone => Ok None
    end
  end.
(** select.c.inc:124-209: the label found in one repository *)
Definition searchRepo (requested : option str) (g : starget) (info : sinfo) : res (option str) :=
  match rev (siBackups info) with
  | [] => Ok None
  | latest :: _ =>
    match requested with
    | None =>
      match g with
      | GNone => if sbPgId latest <? siCurrentPgId info then Err EBackupSetInvalid else Ok (Some (sbLabel latest))
      | _ => searchTarget g (rev (siBackups info))
      end
    | Some label => Ok (if existsb (fun b => strEqb (sbLabel b) label) (siBackups info) then Some label else None)
    end
  end.
Record sresult := mkSresult { srRepo : Z; srCipher : option str; srLabel : str }.
(** select.c.inc:93-226 *)
Fixpoint searchRepos (requested : option str) (g : starget) (repos : list srepo) : res sresult :=
  match repos with
  | [] => Err EBackupSetInvalid
  | (idx, loaded) :: r =>
    let* info := loaded in
    match info with
    | None => searchRepos requested g r
    | Some info =>
      let* found := searchRepo requested g info in
      match found with
      | Some label => Ok (mkSresult idx (siCipher info) label)
      | None => searchRepos requested g r
      end
    end
  end.
(** select.c.inc:36-228; [repo] is the index when the repo option is given *)
Definition restoreBackupSet (mktime : Z -> Z -> Z -> Z -> Z -> Z -> Z) (repo : option Z) (requested : option str) (type : stype) (repos : list srepo) : res sresult :=
  let* g := match requested with None => restoreTarget mktime type | Some _ => Ok GNone end in
  searchRepos requested g (match repo with None => repos | Some i => filter (fun r => fst r =? i) repos end).
